(** What the code writes can be stored: data within the limits of BSON gives documents within them. *)
From Coq Require Import String Ascii.
From Coq Require Import List ZArith NArith Bool Lia.
From Verif Require Import PyVal Diff DiffProofs Time Prepare Mongo Store MongoProofs MongoStore MongoMore Parser ParserTypes Bson BsonProofs.
Import ListNotations.
Local Open Scope string_scope.
Local Open Scope list_scope.
Local Open Scope nat_scope.

(** ** Values *)
(** [v], [n] levels down, is within the limits of BSON and the nesting limit [D] *)
Definition okv (D n : nat) (v : value) : Prop := bson_ok v = true /\ n + depth v <= D.
(** specification or proof device; models no code of its own *)
Definition ok_entry (D n : nat) (kv : pystr * value) : Prop := name_ok (fst kv) = true /\ okv D n (snd kv).
Lemma list_max_in {A} (f : A -> nat) l m : list_max (map f l) <= m <-> Forall (fun x => f x <= m) l.
Proof. rewrite list_max_le. rewrite Forall_map. reflexivity. Qed.
Lemma ok_list D n l : okv D n (VList l) <-> S n <= D /\ Forall (okv D (S n)) l.
Proof.
  unfold okv. cbn [bson_ok depth]. rewrite forallb_forall. split.
  - intros [H1 H2]. split; [lia|]. pose proof (proj1 (list_max_in depth l (D - S n)) ltac:(lia)) as M. rewrite Forall_forall in *. intros x Hx. specialize (M x Hx). cbn beta in M. split; [apply H1, Hx|lia].
  - intros [H1 H2]. rewrite Forall_forall in H2. split; [intros x Hx; apply (H2 x Hx)|]. assert (M : list_max (map depth l) <= D - S n); [|lia]. apply list_max_in. apply Forall_forall. intros x Hx. destruct (H2 x Hx). lia.
Qed.
Lemma ok_dict D n d : okv D n (VDict d) <-> S n <= D /\ Forall (ok_entry D (S n)) d.
Proof.
  unfold okv, ok_entry, okv. cbn [bson_ok depth]. rewrite forallb_forall. split.
  - intros [H1 H2]. split; [lia|]. pose proof (proj1 (list_max_in (fun kv : pystr * value => depth (snd kv)) d (D - S n)) ltac:(lia)) as M. rewrite Forall_forall in *. intros x Hx. specialize (M x Hx). cbn beta in M. specialize (H1 x Hx). apply andb_true_iff in H1. destruct H1. repeat split; try assumption. lia.
  - intros [H1 H2]. rewrite Forall_forall in H2. split; [intros x Hx; destruct (H2 x Hx) as (? & ? & _); apply andb_true_iff; auto|]. assert (M : list_max (map (fun kv : pystr * value => depth (snd kv)) d) <= D - S n); [|lia]. apply list_max_in. apply Forall_forall. intros x Hx. destruct (H2 x Hx) as (_ & _ & ?). lia.
Qed.
(** Lists shorter than 2^63, as all lists of Python are. *)
Fixpoint short (v : value) : Prop :=
  match v with
  | VList l => (Z.of_nat (length l) < 2 ^ 63)%Z /\ fold_right (fun x P => short x /\ P) True l
  | VDict d => fold_right (fun kv P => short (snd kv) /\ P) True d
  | _ => True
  end.
Lemma fold_forall {A} (P : A -> Prop) l : fold_right (fun x Q => P x /\ Q) True l <-> Forall P l.
Proof. induction l as [|x l IH]; cbn [fold_right]; [split; auto|]. rewrite IH. split; [intros [? ?]; constructor; assumption|intro H; inversion H; auto]. Qed.
Lemma short_list l : short (VList l) <-> (Z.of_nat (length l) < 2 ^ 63)%Z /\ Forall short l.
Proof. cbn [short]. rewrite (fold_forall short). reflexivity. Qed.
Lemma short_dict d : short (VDict d) <-> Forall (fun kv => short (snd kv)) d.
Proof. cbn [short]. apply (fold_forall (fun kv => short (snd kv))). Qed.
(** specification or proof device; models no code of its own *)
Definition idx_ok (i : nat) : Prop := (Z.of_nat i < 2 ^ 63)%Z.

(** ** Operations *)
Definition opt_all {A} (P : A -> Prop) (x : option (list A)) : Prop := match x with Some l => Forall P l | None => True end.
(** specification or proof device; models no code of its own *)
Definition key_ok (k : pkey) : Prop := match k with PK s => name_ok s = true | PI i => idx_ok i end.
(** specification or proof device; models no code of its own *)
Definition ops_ok (D n : nat) (o : ops) : Prop :=
  opt_all (ok_entry D (S n)) (o_dc o) /\ opt_all (ok_entry D (S n)) (o_dn o) /\ opt_all (fun k => name_ok k = true) (o_dd o) /\
  opt_all (fun iv => 1 <= n /\ idx_ok (fst iv) /\ okv D (S n) (snd iv)) (o_lc o) /\ opt_all (okv D (S n)) (o_ln o) /\ match o_ld o with Some i => idx_ok i | None => True end.
(** specification or proof device; models no code of its own *)
Definition op_ok (D : nat) (o : diffop) : Prop := Forall key_ok (dpath o) /\ ops_ok D (length (dpath o)) (dops o).

Lemma dget_ok D n d k v : Forall (ok_entry D n) d -> dget d k = Some v -> okv D n v.
Proof. intros H E. apply dget_In in E. rewrite Forall_forall in H. apply (H _ E). Qed.
Lemma dset_ok D n d k v : Forall (ok_entry D n) d -> name_ok k = true -> okv D n v -> Forall (ok_entry D n) (dset d k v).
Proof. intros H K V. induction H as [|[k' v'] d [H1 H2] HF IH]; cbn [dset]; [constructor; [split; assumption|constructor]|]. destruct (str_eqb k k') eqn:Ek; constructor; try assumption; split; assumption. Qed.
Lemma dset_ok_in D n d k v w : Forall (ok_entry D n) d -> dget d k = Some w -> okv D n v -> Forall (ok_entry D n) (dset d k v).
Proof. intros H G V. apply dset_ok; [exact H| |exact V]. apply dget_In in G. rewrite Forall_forall in H. apply (H _ G). Qed.
Lemma ddel_ok D n d k : Forall (ok_entry D n) d -> Forall (ok_entry D n) (ddel d k).
Proof. induction 1 as [|[k' v'] d H HF IH]; cbn [ddel]; [constructor|]. destruct (str_eqb k k'); [exact HF|constructor; assumption]. Qed.
Lemma dupdate_ok D n e : forall d, Forall (ok_entry D n) d -> Forall (ok_entry D n) e -> Forall (ok_entry D n) (dupdate d e).
Proof. induction e as [|[k v] e IH]; intros d Hd He; [exact Hd|]. inversion He as [|? ? [H1 H2] H3]; subst. rewrite dupdate_cons. apply IH; [apply dset_ok; assumption|exact H3]. Qed.
Lemma del_keys_ok D n ks : forall d d', Forall (ok_entry D n) d -> del_keys d ks = Some d' -> Forall (ok_entry D n) d'.
Proof. induction ks as [|k ks IH]; intros d d' H E; cbn [del_keys] in E; [injection E as <-; exact H|]. destruct (dmem d k); [|discriminate]. exact (IH _ _ (ddel_ok D n d k H) E). Qed.
Lemma lset_forall {A} (P : A -> Prop) l : forall i x l', Forall P l -> P x -> lset l i x = Some l' -> Forall P l'.
Proof.
  induction l as [|y l IH]; intros i x l' H Px E; [discriminate|]. inversion H; subst. destruct i; cbn [lset] in E; [injection E as <-; constructor; assumption|]. destruct (lset l i x) as [l''|] eqn:El; [|discriminate]. injection E as <-. constructor; [assumption|]. apply (IH i x); assumption.
Qed.
Lemma set_items_forall {A} (P : A -> Prop) cs : forall l l', Forall P l -> Forall (fun c => P (snd c)) cs -> set_items l cs = Some l' -> Forall P l'.
Proof.
  induction cs as [|[i v] cs IH]; intros l l' H C E; cbn [set_items] in E; [injection E as <-; exact H|]. inversion C; subst. destruct (lset l i v) as [l1|] eqn:El; [|discriminate]. apply (IH l1); try assumption. exact (lset_forall P l i v l1 H H2 El).
Qed.
Lemma apply_ops_ok D n o v w : ops_ok D n o -> okv D n v -> apply_ops o v = Some w -> okv D n w.
Proof.
  intros (O1 & O2 & O3 & O4 & O5 & O6) V E. unfold apply_ops in E. destruct v as [| | | | |l|d]; try discriminate.
  - destruct (o_dc o), (o_dn o), (o_dd o); try discriminate. apply ok_list in V. destruct V as [V1 V2].
    destruct (match o_lc o with Some cs => set_items l cs | None => Some l end) as [l1|] eqn:El; [|discriminate]. injection E as <-. apply ok_list. split; [exact V1|].
    assert (L1 : Forall (okv D (S n)) l1).
    { destruct (o_lc o) as [cs|]; [|injection El as <-; exact V2]. apply (set_items_forall _ cs l l1 V2); [|exact El]. cbn [opt_all] in O4. eapply Forall_impl; [|exact O4]. intros a (_ & _ & ?). assumption. }
    assert (L2 : Forall (okv D (S n)) (match o_ln o with Some t => l1 ++ t | None => l1 end)).
    { destruct (o_ln o) as [t|]; [|exact L1]. apply Forall_app. split; [exact L1|exact O5]. }
    destruct (o_ld o) as [i|]; [|exact L2]. rewrite <- (firstn_skipn i) in L2. apply Forall_app in L2. apply L2.
  - destruct (o_lc o), (o_ln o), (o_ld o); try discriminate. apply ok_dict in V. destruct V as [V1 V2].
    assert (D1 : Forall (ok_entry D (S n)) (match o_dc o with Some c => dupdate d c | None => d end)) by (destruct (o_dc o); [apply dupdate_ok; assumption|exact V2]).
    assert (D2 : Forall (ok_entry D (S n)) (match o_dn o with Some e => dupdate (match o_dc o with Some c => dupdate d c | None => d end) e | None => match o_dc o with Some c => dupdate d c | None => d end end)) by (destruct (o_dn o); [apply dupdate_ok; assumption|exact D1]).
    destruct (o_dd o) as [ks|].
    + destruct (del_keys _ ks) as [d3|] eqn:Ed; [|discriminate]. injection E as <-. apply ok_dict. split; [exact V1|]. exact (del_keys_ok D (S n) ks _ _ D2 Ed).
    + injection E as <-. apply ok_dict. split; [exact V1|exact D2].
Qed.
Lemma upd_path_ok D (f : value -> option value) p : forall n v w, (forall x y, okv D (n + length p) x -> f x = Some y -> okv D (n + length p) y) -> okv D n v -> upd_path p f v = Some w -> okv D n w.
Proof.
  induction p as [|[k|i] p IH]; intros n v w F V E; cbn [upd_path length] in *.
  - rewrite Nat.add_0_r in F. exact (F v w V E).
  - destruct v as [| | | | |l|d]; try discriminate. destruct (dget d k) as [c|] eqn:G; [|discriminate]. destruct (upd_path p f c) as [c'|] eqn:U; [|discriminate]. injection E as <-. apply ok_dict in V. destruct V as [V1 V2]. apply ok_dict. split; [exact V1|].
    apply (dset_ok_in D (S n) d k c' c V2 G). apply (IH (S n) c c'); [|exact (dget_ok D (S n) d k c V2 G)|exact U]. rewrite <- Nat.add_succ_comm in F. exact F.
  - destruct v as [| | | | |l|d]; try discriminate. destruct (nth_error l i) as [c|] eqn:G; [|discriminate]. destruct (upd_path p f c) as [c'|] eqn:U; [|discriminate]. destruct (lset l i c') as [l'|] eqn:El; [|discriminate]. injection E as <-. apply ok_list in V. destruct V as [V1 V2]. apply ok_list. split; [exact V1|].
    apply (lset_forall _ l i c' l' V2); [|exact El]. apply (IH (S n) c c'); [| |exact U]; [rewrite <- Nat.add_succ_comm in F; exact F|]. apply nth_error_In in G. rewrite Forall_forall in V2. apply V2, G.
Qed.
Lemma patch_ok D base os d : okv D 0 (VDict base) -> Forall (op_ok D) os -> patch base os = Some d -> okv D 0 (VDict d).
Proof.
  intros B O E. unfold patch in E. destruct (patch_loop (VDict base) os) as [w|] eqn:El; [|discriminate]. assert (W : okv D 0 w).
  { clear E. revert w El B. generalize (VDict base). induction O as [|o os [_ Ho] _ IH]; intros v w El V; cbn [patch_loop] in El; [injection El as <-; exact V|]. destruct (upd_path _ _ v) as [v'|] eqn:U; [|discriminate]. apply (IH v' w El).
    apply (upd_path_ok D (apply_ops (dops o)) (dpath o) 0 v v'); [|exact V|exact U]. cbn [Nat.add]. intros x y. apply apply_ops_ok. exact Ho. }
  destruct w; try discriminate. injection E as <-. exact W.
Qed.

(** ** Differences *)
Definition comp_ok (D : nat) (c : comparison) : Prop :=
  Forall key_ok (cpath c) /\ okv D (length (cpath c)) (cleft c) /\ okv D (length (cpath c)) (cright c) /\ short (cleft c) /\ match c with CList p _ _ => p <> [] | _ => True end.
Lemma dict_changes_ok D p l r ch fu : Forall key_ok p -> Forall (ok_entry D (S (length p))) l -> Forall (fun kv => short (snd kv)) l -> Forall (ok_entry D (S (length p))) r -> dict_changes p l r = (ch, fu) ->
  Forall (ok_entry D (S (length p))) ch /\ Forall (comp_ok D) fu.
Proof.
  intros Hp Hl. revert ch fu. induction Hl as [|[k lv] l [H1 H2] HF IH]; intros ch fu Hs Hr E; cbn [dict_changes] in E; [injection E as <- <-; split; constructor|].
  inversion Hs as [|? ? S1 S2]; subst. cbn [fst snd] in *. destruct (dict_changes p l r) as [ch0 fu0]. destruct (IH ch0 fu0 S2 Hr eq_refl) as [I1 I2].
  destruct (dget r k) as [rv|] eqn:G; [|injection E as <- <-; split; assumption]. pose proof (dget_ok _ _ _ _ _ Hr G) as Rv. destruct (py_eqb lv rv); [injection E as <- <-; split; assumption|].
  assert (P1 : Forall key_ok (p ++ [PK k])) by (apply Forall_app; split; [exact Hp|repeat constructor; exact H1]).
  assert (L1 : length (p ++ [PK k]) = S (length p)) by (rewrite app_length; cbn; lia).
  destruct lv, rv; injection E as <- <-; (split; [first [exact I1|constructor; [split; assumption|exact I1]]|]); first [exact I2|constructor; [|exact I2]; unfold comp_ok; cbn [cpath cleft cright]; rewrite L1; repeat (split; [assumption|]); first [exact I|intro Q; apply app_eq_nil in Q; destruct Q as [_ Q]; discriminate]].
Qed.
Lemma list_changes_ok D p l : forall i r ch fu ln ld, Forall key_ok p -> Forall (okv D (S (length p))) l -> Forall short l -> (Z.of_nat (i + length l) < 2 ^ 63)%Z -> Forall (okv D (S (length p))) r ->
  list_changes p i l r = (ch, fu, ln, ld) ->
  Forall (fun iv => idx_ok (fst iv) /\ okv D (S (length p)) (snd iv)) ch /\ Forall (comp_ok D) fu /\ opt_all (okv D (S (length p))) ln /\ match ld with Some j => idx_ok j | None => True end.
Proof.
  induction l as [|lv l IH]; intros i r ch fu ln ld Hp Hl Hs Hn Hr E; destruct r as [|rv r]; cbn [list_changes] in E.
  - injection E as <- <- <- <-. repeat split; constructor.
  - injection E as <- <- <- <-. repeat split; try constructor; inversion Hr; assumption.
  - injection E as <- <- <- <-. split; [constructor|]. split; [constructor|]. split; [exact I|]. unfold idx_ok. cbn [length] in Hn. lia.
  - inversion Hl as [|? ? L1 L2]; subst. inversion Hs as [|? ? S1 S2]; subst. inversion Hr as [|? ? R1 R2]; subst. cbn [length] in Hn.
    destruct (list_changes p (S i) l r) as [[[ch0 fu0] ln0] ld0] eqn:El. destruct (IH (S i) r ch0 fu0 ln0 ld0 Hp L2 S2 ltac:(replace (S i + length l) with (i + S (length l)) by lia; exact Hn) R2 El) as (I1 & I2 & I3 & I4).
    assert (Ii : idx_ok i) by (unfold idx_ok; lia).
    assert (P1 : Forall key_ok (p ++ [PI i])) by (apply Forall_app; split; [exact Hp|repeat constructor; exact Ii]).
    assert (Le : length (p ++ [PI i]) = S (length p)) by (rewrite app_length; cbn; lia).
    destruct (py_eqb lv rv); [injection E as <- <- <- <-; repeat split; assumption|].
    destruct lv, rv; injection E as <- <- <- <-; (split; [first [exact I1|constructor; [split; assumption|exact I1]]|]); (split; [|split; assumption]); first [exact I2|constructor; [|exact I2]; unfold comp_ok; cbn [cpath cleft cright]; rewrite Le; repeat (split; [assumption|]); first [exact I|intro Q; apply app_eq_nil in Q; destruct Q as [_ Q]; discriminate]].
Qed.
Lemma nonempty_all {A} (P : A -> Prop) l : Forall P l -> opt_all P (nonempty l).
Proof. destruct l; intro H; [exact I|exact H]. Qed.
Lemma compare_ok D c o fu : comp_ok D c -> compare c = (o, fu) -> (forall x, o = Some x -> op_ok D x) /\ Forall (comp_ok D) fu.
Proof.
  intros (Hp & Hl & Hr & Hs & Hn) E. destruct c as [p l r|p l r]; cbn [cpath cleft cright] in *; unfold compare in E.
  - apply ok_dict in Hl, Hr. destruct Hl as [_ Hl], Hr as [_ Hr]. apply short_dict in Hs. destruct (dict_changes p l r) as [ch f] eqn:Ec. destruct (dict_changes_ok D p l r ch f Hp Hl Hs Hr Ec) as [C1 C2]. injection E as <- <-. split; [|exact C2].
    intros x Hx. match type of Hx with (if ?b then _ else _) = _ => destruct b; [discriminate|] end. injection Hx as <-. split; [exact Hp|]. cbn [dpath dops]. repeat split; cbn [o_dc o_dn o_dd o_lc o_ln o_ld opt_all]; try exact I.
    + apply nonempty_all, C1.
    + apply nonempty_all. unfold new_values. apply Forall_forall. intros kv H. apply filter_In in H. rewrite Forall_forall in Hr. apply Hr, H.
    + apply nonempty_all. unfold deleted_keys. apply Forall_forall. intros k H. apply filter_In in H. destruct H as [H _]. unfold dkeys in H. apply in_map_iff in H. destruct H as (kv & <- & H). rewrite Forall_forall in Hl. apply (Hl _ H).
  - apply ok_list in Hl, Hr. destruct Hl as [_ Hl], Hr as [_ Hr]. apply short_list in Hs. destruct Hs as [Hs0 Hs]. destruct (list_changes p 0 l r) as [[[ch f] ln] ld] eqn:Ec. destruct (list_changes_ok D p l 0 r ch f ln ld Hp Hl Hs Hs0 Hr Ec) as (C1 & C2 & C3 & C4). injection E as <- <-. split; [|exact C2].
    intros x Hx. match type of Hx with (if ?b then _ else _) = _ => destruct b; [discriminate|] end. injection Hx as <-. split; [exact Hp|]. cbn [dpath dops]. repeat split; cbn [o_dc o_dn o_dd o_lc o_ln o_ld opt_all]; try exact I; try assumption.
    apply nonempty_all. eapply Forall_impl; [|exact C1]. intros a [A1 A2]. split; [destruct p; [contradiction|cbn; lia]|split; assumption].
Qed.
Lemma diff_ok D b n : okv D 0 (VDict b) -> short (VDict b) -> okv D 0 (VDict n) -> Forall (op_ok D) (diff b n).
Proof.
  intros B S N. unfold diff. destruct (py_eqb _ _); [constructor|].
  assert (G : forall fuel q l, Forall (comp_ok D) q -> diff_loop fuel q = Some l -> Forall (op_ok D) l).
  { clear. induction fuel as [|f IH]; intros [|c q] l Q H; cbn [diff_loop] in H; try discriminate; try (injection H as <-; constructor).
    inversion Q as [|? ? Q1 Q2]; subst. destruct (compare c) as [o fu] eqn:E. destruct (compare_ok D c o fu Q1 E) as [C1 C2]. destruct (diff_loop f (q ++ fu)) as [rest|] eqn:Er; [|discriminate]. injection H as <-. apply IH in Er; [|apply Forall_app; split; assumption].
    destruct o as [o|]; [|exact Er]. constructor; [exact (C1 o eq_refl)|exact Er]. }
  destruct (diff_loop _ _) as [l|] eqn:E; [|constructor]. refine (G _ [CDict [] b n] l _ E). constructor; [|constructor]. split; [constructor|]. split; [exact B|]. split; [exact N|]. split; [exact S|exact I].
Qed.

(** ** Documents *)
Definition good_doc (D : nat) (d : doc) : Prop :=
  text_ok (d_id d) = true /\ (forall v, d_ver d = Some v -> int_ok v = true) /\ okv D 0 (VDict (d_data d)) /\ Forall (fun vo => int_ok (fst vo) = true /\ Forall (op_ok D) (snd vo)) (d_diffs d).
(** specification or proof device; models no code of its own *)
Definition good_mop (D : nat) (o : mop) : Prop :=
  match o with
  | InsertOp id data => text_ok id = true /\ okv D 0 (VDict data)
  | SetDataOp _ data => okv D 0 (VDict data)
  | ChangeOp _ data v ch => okv D 0 (VDict data) /\ int_ok v = true /\ Forall (op_ok D) ch
  | RevertOp _ data v _ => okv D 0 (VDict data) /\ int_ok v = true
  | Mongo.DeleteOp _ => True
  end.
(** specification or proof device; models no code of its own *)
Definition good_rec (D : nat) (r : pystr * dict) : Prop := text_ok (fst r) = true /\ okv D 0 (VDict (snd r)) /\ short (VDict (snd r)).
(** specification or proof device; models no code of its own *)
Definition good_ver (v : Z) : Prop := int_ok v = true.

(** *** they are accepted *)
Lemma name_text s : name_ok s = true -> text_ok s = true.
Proof. unfold name_ok. intro H. apply andb_true_iff in H. apply H. Qed.
Lemma digits_name s : (forall c, In c s -> (45 <= c <= 57)%N) -> name_ok s = true.
Proof.
  intro H. unfold name_ok, text_ok. apply andb_true_iff. split; apply forallb_forall; intros c Hc; specialize (H c Hc).
  - apply negb_true_iff, andb_false_iff. left. apply N.leb_gt. lia.
  - apply negb_true_iff, N.eqb_neq. lia.
Qed.
Lemma str_int_name z : name_ok (str_int z) = true.
Proof.
  apply digits_name. intros c H. unfold str_int in H. destruct z as [|p|p]; [apply uint_digits in H; lia|apply uint_digits in H; lia|]. destruct H as [<-|H]; [lia|apply uint_digits in H; lia].
Qed.
Lemma idx_int i : idx_ok i -> int_ok (Z.of_nat i) = true.
Proof. unfold idx_ok, int_ok. intro H. apply andb_true_iff. split; [apply Z.leb_le; lia|apply Z.ltb_lt; exact H]. Qed.
Lemma okv_int L n i : n <= L -> idx_ok i -> okv L n (VInt (Z.of_nat i)).
Proof. intros H I. split; [apply idx_int, I|cbn [depth]; lia]. Qed.
Lemma okv_str L n s : n <= L -> text_ok s = true -> okv L n (VStr s).
Proof. intros H I. split; [exact I|cbn [depth]; lia]. Qed.
Lemma okv_shift D L n m v : okv D n v -> m + D <= L + n -> okv L m v.
Proof. intros [H1 H2] H. split; [exact H1|lia]. Qed.
Lemma entry_ok {A} L n name (f : A -> value) (x : option A) : name_ok (lit name) = true -> (forall y, x = Some y -> okv L n (f y)) -> Forall (ok_entry L n) (entry name f x).
Proof. intros N H. destruct x as [y|]; [|constructor]. constructor; [|constructor]. split; [exact N|exact (H y eq_refl)]. Qed.
Section Accepted.
Variables D L : nat.
Hypothesis DL : D + 5 <= L.
Hypothesis D1 : 1 <= D.
Lemma write_ops_ok n o : ops_ok D n o -> okv L 4 (VDict (write_ops o)).
Proof.
  intros (O1 & O2 & O3 & O4 & O5 & O6). apply ok_dict. split; [lia|]. unfold write_ops. repeat rewrite Forall_app.
  assert (E : forall d, Forall (ok_entry D (S n)) d -> okv L 5 (VDict d)).
  { intros d H. apply ok_dict. split; [lia|]. eapply Forall_impl; [|exact H]. intros kv [H1 H2]. split; [exact H1|]. apply (okv_shift D L (S n)); [exact H2|]. lia. }
  split; [|split; [|split; [|split; [|split]]]]; (apply entry_ok; [reflexivity|]); intros y Hy.
  - rewrite Hy in O2. apply E, O2.
  - rewrite Hy in O3. cbn [opt_all] in O3. apply ok_list. split; [lia|]. apply Forall_map. eapply Forall_impl; [|exact O3]. intros k Hk. apply okv_str; [lia|exact (name_text k Hk)].
  - rewrite Hy in O1. apply E, O1.
  - rewrite Hy in O5. cbn [opt_all] in O5. apply ok_list. split; [lia|]. eapply Forall_impl; [|exact O5]. intros v Hv. apply (okv_shift D L (S n)); [exact Hv|]. lia.
  - rewrite Hy in O6. apply okv_int; [lia|exact O6].
  - rewrite Hy in O4. cbn [opt_all] in O4. apply ok_list. split; [lia|]. apply Forall_map. eapply Forall_impl; [|exact O4]. intros [i v] (H1 & H2 & H3). cbn [fst snd] in *. apply ok_list. split; [destruct H3 as [_ H3]; lia|]. constructor; [apply okv_int; [destruct H3 as [_ H3]; lia|exact H2]|]. constructor; [|constructor].
    apply (okv_shift D L (S n)); [exact H3|lia].
Qed.
Lemma write_diffop_ok o : op_ok D o -> okv L 3 (write_diffop o).
Proof.
  intros [H1 H2]. unfold write_diffop. apply ok_list. split; [lia|]. constructor; [|constructor; [exact (write_ops_ok _ _ H2)|constructor]]. apply ok_list. split; [lia|]. apply Forall_map. eapply Forall_impl; [|exact H1].
  intros [k|i] H; cbn [write_key key_ok] in *; [apply okv_str; [lia|exact (name_text k H)]|apply okv_int; [lia|exact H]].
Qed.
Lemma good_accepted raw d : holds raw d -> good_doc D d -> accepted L raw = true.
Proof.
  intros (x & -> & H) (G1 & G2 & G3 & G4).
  assert (A : okv L 0 (VDict ([(lit "id", VStr (d_id d)); (lit "data", VDict (d_data d)); (lit "version", write_version (d_ver d))] ++ x))).
  { apply ok_dict. split; [lia|]. apply Forall_app. split.
    - constructor; [split; [reflexivity|apply okv_str; [lia|exact G1]]|]. constructor; [split; [reflexivity|apply (okv_shift D L 0); [exact G3|lia]]|]. constructor; [|constructor]. split; [reflexivity|]. cbn [snd]. unfold write_version. destruct (d_ver d) as [v|]; split; cbn; try reflexivity; try lia. exact (G2 v eq_refl).
    - destruct H as [->|[-> _]]; [|constructor]. constructor; [|constructor]. split; [reflexivity|]. cbn [snd]. apply ok_dict. split; [lia|]. unfold write_diffs. apply Forall_map. eapply Forall_impl; [|exact G4]. intros [v os] [V1 V2]. split; [apply str_int_name|]. cbn [snd].
      unfold write_changes. apply ok_list. split; [lia|]. apply Forall_map. eapply Forall_impl; [|exact V2]. intro o. apply write_diffop_ok. }
  unfold accepted. destruct A as [A1 A2]. apply andb_true_iff. split; [exact A1|]. apply Nat.leb_le. lia.
Qed.
(** *** operations leave good documents *)
Lemma zset_good (P : Z * list diffop -> Prop) l v ch : Forall P l -> (forall w, v = w -> P (w, ch)) -> Forall P (zset l v ch).
Proof. intros H C. induction H as [|[w o] l H HF IH]; cbn [zset]; [constructor; [apply C; reflexivity|constructor]|]. destruct (Z.eqb_spec v w) as [E|_]; constructor; try assumption. apply C, E. Qed.
Lemma zdel_good (P : Z * list diffop -> Prop) l v : Forall P l -> Forall P (zdel l v).
Proof. intro H. induction H as [|[w o] l H HF IH]; cbn [zdel]; [constructor|]. destruct (Z.eqb v w); [exact HF|constructor; assumption]. Qed.
Lemma upd_good id f c : Forall (good_doc D) c -> (forall d, good_doc D d -> good_doc D (f d)) -> Forall (good_doc D) (upd_first c id f).
Proof. intros H F. induction H as [|d c H HF IH]; [constructor|]. cbn [upd_first]. destruct (str_eqb (d_id d) id); constructor; auto. Qed.
Lemma apply_good c o : Forall (good_doc D) c -> good_mop D o -> Forall (good_doc D) (apply_mop c o).
Proof.
  intros H G. destruct o as [id data|id data|id data v ch|id data v all|id]; cbn [apply_mop good_mop] in *.
  - apply Forall_app. split; [exact H|]. constructor; [|constructor]. destruct G as [G1 G2]. repeat split; cbn [d_id d_ver d_data d_diffs]; try assumption; try discriminate; try apply G2. constructor.
  - apply upd_good; [exact H|]. intros d (G1 & G2 & G3 & G4). split; [exact G1|]. split; [exact G2|]. split; [exact G|exact G4].
  - apply upd_good; [exact H|]. destruct G as (Ga & Gb & Gc). intros d (G1 & G2 & G3 & G4). split; [exact G1|]. split; [discriminate|]. split; [exact Ga|]. cbn [d_diffs]. apply zset_good; [exact G4|]. intros w <-. split; assumption.
  - apply upd_good; [exact H|]. destruct G as (Ga & Gb). intros d (G1 & G2 & G3 & G4). split; [exact G1|]. split; [intros w E; injection E as <-; exact Gb|]. split; [exact Ga|]. cbn [d_diffs]. destruct all; [constructor|]. apply zdel_good, G4.
  - induction H as [|d c H HF IH]; [constructor|]. cbn [del_first]. destruct (str_eqb (d_id d) id); [exact HF|constructor; assumption].
Qed.
Lemma commit_good v d : good_ver v -> good_doc D d -> good_doc D (commit_doc v d).
Proof. intros V (G1 & G2 & G3 & G4). unfold commit_doc. destruct (d_ver d) eqn:E; [repeat split; try assumption; try apply G3; rewrite E; exact G2|]. split; [exact G1|]. split; [intros w Q; injection Q as <-; exact V|]. split; assumption. Qed.
(** *** the operations generated are good *)
Lemma repush_ok d f : okv D 0 (VDict d) -> okv D 0 (VDict (repush d f)).
Proof.
  intro H. unfold repush. destruct (dget d f) as [v|] eqn:E; [|exact H]. apply ok_dict in H. destruct H as [H1 H2]. apply ok_dict. split; [exact H1|]. apply dset_ok; [apply ddel_ok, H2| |exact (dget_ok _ _ _ _ _ H2 E)]. apply dget_In in E. rewrite Forall_forall in H2. apply (H2 _ E).
Qed.
Lemma dset_short d k v : Forall (fun kv : pystr * value => short (snd kv)) d -> short v -> Forall (fun kv : pystr * value => short (snd kv)) (dset d k v).
Proof. intros H V. induction H as [|[k' v'] d H HF IH]; cbn [dset]; [constructor; [exact V|constructor]|]. destruct (str_eqb k k'); constructor; assumption. Qed.
Lemma ddel_short d k : Forall (fun kv : pystr * value => short (snd kv)) d -> Forall (fun kv : pystr * value => short (snd kv)) (ddel d k).
Proof. induction 1 as [|[k' v'] d H HF IH]; cbn [ddel]; [constructor|]. destruct (str_eqb k k'); [exact HF|constructor; assumption]. Qed.
Lemma repush_short d f : short (VDict d) -> short (VDict (repush d f)).
Proof.
  intro H. unfold repush. destruct (dget d f) as [v|] eqn:E; [|exact H]. apply short_dict in H. apply short_dict. apply dset_short; [apply ddel_short, H|]. apply dget_In in E. rewrite Forall_forall in H. apply (H _ E).
Qed.
Lemma rec_changes_ok mf new old ch new' old' : okv D 0 (VDict new) -> short (VDict new) -> okv D 0 (VDict old) -> rec_changes mf new old = (ch, new', old') ->
  Forall (op_ok D) ch /\ okv D 0 (VDict new') /\ okv D 0 (VDict old').
Proof.
  intros N S O E. unfold rec_changes in E. destruct mf as [f|]; [destruct (dmem new f && dmem old f)|]; injection E as <- <- <-.
  - split; [|split; apply repush_ok; assumption]. destruct (isnil _); [constructor|]. apply diff_ok; [apply repush_ok, N|apply repush_short, S|apply repush_ok, O].
  - split; [apply diff_ok; assumption|split; assumption].
  - split; [apply diff_ok; assumption|split; assumption].
Qed.
Lemma zget_good (P : Z * list diffop -> Prop) l v os : Forall P l -> zget l v = Some os -> P (v, os).
Proof. induction 1 as [|[w o] l H HF IH]; cbn [zget]; [discriminate|]. destruct (Z.eqb_spec v w) as [->|_]; [intro E; injection E as <-; exact H|exact IH]. Qed.
Lemma revert_good d d' : good_doc D d -> revert_doc d = Some d' -> good_doc D d'.
Proof.
  intros (G1 & G2 & G3 & G4) E. unfold revert_doc in E. destruct (d_ver d); [discriminate|]. destruct (zsort_desc _) as [|v vs]; [discriminate|]. destruct (zget (d_diffs d) v) as [os|] eqn:Ez; [|discriminate]. destruct (patch (d_data d) os) as [data|] eqn:Ep; [|discriminate]. cbn [bind] in E. injection E as <-.
  destruct (zget_good _ _ _ _ G4 Ez) as [V1 V2]. split; [exact G1|]. split; [intros w Q; injection Q as <-; exact V1|]. split; [exact (patch_ok D _ _ _ G3 V2 Ep)|]. apply zdel_good, G4.
Qed.
Lemma rec_op_good mf r e o : good_rec D r -> match e with Some d => good_doc D d | None => True end -> rec_op mf r e = Some (Some o) -> good_mop D o.
Proof.
  intros (R1 & R2 & R3) Ge E. unfold rec_op in E. destruct e as [d|].
  - pose proof Ge as (G1 & G2 & G3 & G4). destruct (d_ver d) as [v|] eqn:Ev.
    + destruct (rec_changes mf (snd r) (d_data d)) as [[ch new'] old'] eqn:Ec. destruct (rec_changes_ok _ _ _ _ _ _ R2 R3 G3 Ec) as (C1 & C2 & _). destruct (isnil ch); [discriminate|]. injection E as <-. split; [exact C2|]. split; [exact (G2 v eq_refl)|exact C1].
    + destruct (isnil (d_diffs d)).
      * destruct (p_del r); [injection E as <-; exact I|]. destruct (isnil _); [discriminate|]. injection E as <-. exact R2.
      * destruct (revert_doc d) as [d'|] eqn:Er; [|discriminate]. destruct (revert_good _ _ Ge Er) as (H1 & H2 & H3 & H4). destruct (rec_changes mf (snd r) (d_data d')) as [[ch new'] old'] eqn:Ec. destruct (rec_changes_ok _ _ _ _ _ _ R2 R3 H3 Ec) as (C1 & C2 & C3).
        destruct (d_ver d') as [v|] eqn:Ev'; [|discriminate]. destruct (isnil ch); [unfold revert_op in E; rewrite Ev' in E|]; injection E as <-; [split; [exact C3|exact (H2 v eq_refl)]|]. split; [exact C2|]. split; [exact (H2 v eq_refl)|exact C1].
  - destruct (p_del r); [discriminate|]. injection E as <-. split; assumption.
Qed.
Lemma find_good c id d : Forall (good_doc D) c -> find_last c id = Some d -> good_doc D d.
Proof. intros H E. unfold find_last in E. apply find_some in E. destruct E as [E _]. apply in_rev in E. rewrite Forall_forall in H. apply H, E. Qed.
Lemma chunk_good mf c chunk os : Forall (good_doc D) c -> Forall (good_rec D) chunk -> chunk_ops mf c chunk = Some os -> Forall (good_mop D) os.
Proof.
  intros Hc Hr E. unfold chunk_ops in E. assert (B : Forall (good_rec D) (by_id chunk)).
  { apply Forall_forall. intros r I. unfold by_id, dict_of in I. apply In_dupdate in I. destruct I as [[]|I]. rewrite Forall_forall in Hr. apply Hr, I. }
  destruct (forallb _ _).
  - injection E as <-. apply Forall_forall. intros x Hx. apply in_map_iff in Hx. destruct Hx as (r & <- & I). apply filter_In in I. rewrite Forall_forall in B. destruct (B r (proj1 I)) as (B1 & B2 & _). split; assumption.
  - revert os E. induction B as [|r rs Hr0 _ IH]; intros os E; cbn [map_ops] in E; [injection E as <-; constructor|]. destruct (rec_op mf r (find_last c (fst r))) as [o|] eqn:Eo; [|discriminate]. destruct (map_ops mf c rs) as [l|]; [|discriminate]. cbn [bind] in E. injection E as <-. specialize (IH l eq_refl).
    destruct o as [o|]; [|exact IH]. constructor; [|exact IH]. apply (rec_op_good mf r (find_last c (fst r)) o Hr0); [|exact Eo]. destruct (find_last c (fst r)) as [d|] eqn:Ef; [exact (find_good _ _ _ Hc Ef)|exact I].
Qed.
Lemma rollback_good c os : Forall (good_doc D) c -> rollback_ops c = Some os -> Forall (good_mop D) os.
Proof.
  intros H E. unfold rollback_ops in E. assert (F : Forall (good_doc D) (filter is_pending c)) by (apply Forall_forall; intros d I; apply filter_In in I; rewrite Forall_forall in H; apply H, I).
  revert os E. induction F as [|d c' Hd _ IH]; intros os E; cbn [rollback_ops_of] in E; [injection E as <-; constructor|]. destruct (rollback_op d) as [o|] eqn:Eo; [|discriminate]. destruct (rollback_ops_of c') as [l|]; [|discriminate]. cbn [bind] in E. injection E as <-. constructor; [|exact (IH l eq_refl)].
  unfold rollback_op, revert_op in Eo. destruct (isnil (d_diffs d)); [injection Eo as <-; exact I|]. destruct (revert_doc d) as [d'|] eqn:Er; [|discriminate]. destruct (revert_good _ _ Hd Er) as (H1 & H2 & H3 & H4). destruct (d_ver d') as [v|] eqn:Ev; [|discriminate]. injection Eo as <-. split; [exact H3|exact (H2 v eq_refl)].
Qed.
Theorem run_accepted ss : Forall (good_step (good_rec D) good_ver) ss -> same_result (good_doc D) (read_run (accepted L) [] ss) (run [] ss).
Proof.
  intro H. apply (run_same (accepted L) (good_doc D) (good_mop D) (good_rec D) good_ver good_accepted apply_good chunk_good rollback_good commit_good ss H). split; [|split]; constructor.
Qed.
End Accepted.
(** Without limits. *)
Theorem run_unlimited ss : same_result (fun _ => True) (read_run (fun _ => true) [] ss) (run [] ss).
Proof.
  assert (T : forall A (l : list A), Forall (fun _ => True) l) by (intros A l; apply Forall_forall; auto).
  apply (run_same (fun _ => true) (fun _ => True) (fun _ => True) (fun _ => True) (fun _ => True)); auto.
  - apply Forall_forall. intros [mf recs|v|] _; cbn; auto.
  - split; [|split]; constructor.
Qed.
