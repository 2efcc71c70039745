(** Property C98: the number of fields of an index. *)
From Coq Require Import String Ascii.
From Coq Require Import List ZArith NArith Bool Lia Permutation SpecFloat.
From Verif Require Import PyVal Time TimeParse Prepare PrepareProofs PropsPrepare Parser ParserProofs ParserTypes ParserOrder ParserEq PropsParser Options Index Names Search Mapping PropsMapping.
From Verif Require Import PropsTotal EndToEnd ParserPlaces PropsPlaces FieldLimit.
Import ListNotations.
Open Scope string_scope.
Open Scope list_scope.
Open Scope nat_scope.

(** ** Specification *)
(** [has_field p v]: there is a field in the data that the names [p] lead to (through lists). *)
Inductive has_field : list pystr -> value -> Prop :=
| hf_here k w d : In (k, w) d -> has_field [k] (VDict d)
| hf_in k p w d : In (k, w) d -> has_field p w -> has_field (k :: p) (VDict d)
| hf_item p w l : In w l -> has_field p w -> has_field p (VList l).
(** The mapping of an index that holds the documents: every field of theirs once. *)
Definition mapping_for (rs : list parsed_data) (fs : list (list pystr)) : Prop :=
  NoDup fs /\ forall p, In p fs <-> In p predefined \/ exists r, In r rs /\ In p (doc_fields r).
(** The documents of records, each parsed with some options. *)
Definition documents (db : chardb) (pad : bool) (L : lib) (recs : list record) (rs : list parsed_data) : Prop :=
  Forall2 (fun rec r => exists o, one_hint_each o /\ parse L o (prepare_record_data db pad rec) = Some r) recs rs.
(** The names on the way to a place. *)
Fixpoint names (s : list step) : list pystr := match s with [] => [] | Key k :: s' => k :: names s' | Item _ :: s' => names s' end.
(** Some record has a value in the field that is neither None nor empty. *)
Definition holds_value (db : chardb) (pad : bool) (recs : list record) (f : list pystr) : Prop :=
  exists rec s a, In rec recs /\ at_place s (VDict (prepare_record_data db pad rec)) = Some a /\ names s = f /\ parsed_as_value a.

(** ** Counting *)
Lemma same_length {A} (a b : list A) : NoDup a -> NoDup b -> (forall x, In x a <-> In x b) -> length a = length b.
Proof. intros Na Nb H. apply Nat.le_antisymm; apply NoDup_incl_length; try assumption; intros x Hx; apply H, Hx. Qed.
Lemma put_all_iff rs : forall m, NoDup m -> (N.of_nat (length m) <= field_limit)%N ->
  (put_all m rs <> None <-> (N.of_nat (length (nodup path_dec (m ++ flat_map doc_fields rs))) <= field_limit)%N).
Proof.
  induction rs as [|r rs IH]; intros m Nm Lm; cbn [put_all flat_map].
  - rewrite app_nil_r, nodup_fixed_point by exact Nm. split; [intros _; exact Lm|discriminate].
  - unfold put. cbv zeta. set (m' := nodup path_dec (m ++ doc_fields r)). pose proof (NoDup_nodup path_dec (m ++ doc_fields r)) as N'. fold m' in N'.
    destruct (N.leb_spec (N.of_nat (length m')) field_limit) as [Le|Gt].
    + rewrite (IH m' N' Le). assert (E : length (nodup path_dec (m' ++ flat_map doc_fields rs)) = length (nodup path_dec (m ++ doc_fields r ++ flat_map doc_fields rs))); [|rewrite E; reflexivity].
      apply same_length; try apply NoDup_nodup. intro x. rewrite !nodup_In, !in_app_iff. unfold m'. rewrite nodup_In, in_app_iff. tauto.
    + split; [intro K; destruct (K eq_refl)|]. intro K. exfalso. assert (G : length m' <= length (nodup path_dec (m ++ doc_fields r ++ flat_map doc_fields rs))).
      { apply NoDup_incl_length; [exact N'|]. intros x Hx. unfold m' in Hx. rewrite nodup_In, in_app_iff in *. rewrite in_app_iff. tauto. }
      lia.
Qed.
Lemma length_flat_const {A B} (f : A -> list B) n l : (forall x, length (f x) = n) -> length (flat_map f l) = n * length l.
Proof. intro H. induction l as [|x l IH]; cbn [flat_map length]; [lia|]. rewrite app_length, H, IH. lia. Qed.
Lemma NoDup_append {A} (a b : list A) : NoDup a -> NoDup b -> (forall x, In x a -> ~ In x b) -> NoDup (a ++ b).
Proof.
  intros Na Nb H. induction Na as [|x a Hx Na IH]; cbn [app]; [exact Nb|]. constructor; [|apply IH; intros y Hy; apply H; right; exact Hy].
  rewrite in_app_iff. intros [K|K]; [exact (Hx K)|]. exact (H x (or_introl eq_refl) K).
Qed.
Lemma NoDup_flat {A B} (g : A -> list B) l : NoDup l -> (forall x, NoDup (g x)) -> (forall x y z, In x l -> In y l -> In z (g x) -> In z (g y) -> x = y) -> NoDup (flat_map g l).
Proof.
  intros N Hg H. induction N as [|x l Hx N IH]; cbn [flat_map]; [constructor|]. apply NoDup_append; [apply Hg|apply IH; intros a b z Ha Hb; apply H; right; assumption|].
  intros z Hz K. apply in_flat_map in K. destruct K as (y & Hy & Kz). apply Hx. rewrite (H x y z (or_introl eq_refl) (or_intror Hy) Hz Kz). exact Hy.
Qed.
Definition with_types (ts : list pystr) (f : list pystr) : list (list pystr) := map (fun e => lit "data" :: f ++ e) ([] :: map (fun t => [t]) ts).
Lemma with_types_In ts f q : In q (with_types ts f) <-> q = lit "data" :: f \/ exists t, In t ts /\ q = lit "data" :: f ++ [t].
Proof.
  unfold with_types. cbn [map In]. rewrite app_nil_r, map_map, in_map_iff. split.
  - intros [E|(t & E & H)]; [left; symmetry; exact E|right; exists t; auto].
  - intros [E|(t & E & H)]; [left; symmetry; exact E|right; exists t; auto].
Qed.
Lemma with_types_length ts f : length (with_types ts f) = S (length ts).
Proof. unfold with_types. cbn [map length]. rewrite !map_length. reflexivity. Qed.
Lemma with_types_NoDup ts fs : NoDup ts -> Forall parsed_type ts -> NoDup fs -> (forall f, In f fs -> f <> [] /\ Forall key_ok f) -> NoDup (predefined ++ [lit "data"] :: flat_map (with_types ts) fs).
Proof.
  intros Nt Ht Nf Hf. rewrite Forall_forall in Ht. apply NoDup_append; [vm_compute; repeat constructor; cbn; intuition discriminate|constructor|].
  - intro K. apply in_flat_map in K. destruct K as (f & Hn & K). destruct (Hf f Hn) as [Ne _]. apply with_types_In in K. destruct K as [E|(t & _ & E)]; [congruence|]. injection E as E. symmetry in E. apply app_eq_nil in E. destruct E as [E _]. contradiction.
  - apply NoDup_flat; [exact Nf| |].
    + intro f. unfold with_types. cbn [map]. rewrite map_map, app_nil_r. constructor.
      * rewrite in_map_iff. intros (t & E & _). injection E as E. apply (f_equal (@length _)) in E. rewrite app_length in E. cbn in E. lia.
      * clear - Nt. induction Nt as [|t ts H N IH]; cbn [map]; constructor; [|exact IH]. rewrite in_map_iff. intros (u & E & K). injection E as E. apply app_inv_head in E. injection E as ->. exact (H K).
    + intros f g z Hfi Hgi Hz Hz'. apply with_types_In in Hz, Hz'. destruct (Hf f Hfi) as [_ Kf]. destruct (Hf g Hgi) as [_ Kg].
      assert (G : forall a b t, Forall key_ok a -> In t ts -> lit "data" :: a = lit "data" :: b ++ [t] -> False).
      { intros a b t Ka Hti E. injection E as ->. apply Forall_app in Ka. destruct Ka as [_ Ka]. inversion Ka as [|? ? (K & _) _]; subst. exact (K (Ht t Hti)). }
      destruct Hz as [->|(t & T & ->)], Hz' as [E|(u & U & E)].
      * injection E as E. exact E.
      * destruct (G f g u Kf U E).
      * symmetry in E. destruct (G g f t Kg T E).
      * injection E as E. apply app_inj_tail in E. apply E.
  - intros x Hx K. assert (E : exists y, x = lit "data" :: y) by (destruct K as [<-|K]; [eexists; reflexivity|apply in_flat_map in K; destruct K as (f & _ & K); apply with_types_In in K; destruct K as [->|(t & _ & ->)]; eexists; reflexivity]).
    destruct E as (y & ->). vm_compute in Hx. intuition discriminate.
Qed.

(** ** From above *)
Definition ok (v : value) (p q : list pystr) : Prop := exists n, (n = [] \/ has_field n v) /\ (q = p ++ n \/ exists t, parsed_type t /\ q = p ++ n ++ [t]).
Lemma ok_here v p : ok v p p.
Proof. exists []. split; [left; reflexivity|left; rewrite app_nil_r; reflexivity]. Qed.
Lemma plain_fields w p q : plain w -> In q (fields_in p w) -> q = p.
Proof. destruct w; cbn; intuition. Qed.
Lemma typed_fields v d p q : Forall (fun kv => parsed_type (fst kv) /\ plain (snd kv)) d -> In q (fields_in p (VDict d)) -> ok v p q.
Proof.
  intros H K. cbn [fields_in] in K. destruct K as [<-|K]; [apply ok_here|]. destruct (disabled p); [destruct K|]. apply in_flat_map in K. destruct K as ([k w] & Hk & K). rewrite Forall_forall in H. destruct (H _ Hk) as [H1 H2]. cbn [fst snd] in *.
  apply (plain_fields _ _ _ H2) in K. subst q. exists []. split; [left; reflexivity|]. right. exists k. split; [exact H1|reflexivity].
Qed.
Section Above.
Variable L : lib.
Variable o : options.
Lemma value_typed v : plain v -> Forall (fun kv => parsed_type (fst kv) /\ plain (snd kv)) (parse_value L o v).
Proof. intro H. pose proof (value_members (fun _ => False) L o v H) as K. eapply Forall_impl; [|exact K]. intros kv [[[] _]|[A [B _]]]. auto. Qed.
Definition nested_ok (nested : value -> option (value * list pystr * list pystr)) (v : value) : Prop := forall w dts pts, nested v = Some (w, dts, pts) -> forall p q, In q (fields_in p w) -> ok v p q.
Lemma unparsed_ok u v p q : plain v -> In q (fields_in p (VDict [(pt_u, v)])) -> ok u p q.
Proof. intro H. apply typed_fields. constructor; [|constructor]. split; [unfold parsed_type; cbn [fst In]; auto|exact H]. Qed.
Lemma entry_ok nested k v w dts pts : nested_ok nested v -> parse_entry L o nested k v = Some (Some w, dts, pts) -> forall p q, In q (fields_in p w) -> ok v p q.
Proof.
  intros Hn H p q. destruct v as [|b|z|f|[|c s]|l|d]; cbn [parse_entry] in H; try (injection H as <- _ _; first [apply unparsed_ok; exact I|apply typed_fields, value_typed; exact I]).
  - destruct (is_empty (VList l)); [discriminate|]. destruct (nested (VList l)) as [[[x d1] p1]|] eqn:E; [|discriminate]. injection H as <- _ _. exact (Hn _ _ _ E p q).
  - destruct (is_empty (VDict d)); [discriminate|]. destruct (nested (VDict d)) as [[[x d1] p1]|] eqn:E; [|discriminate]. injection H as <- _ _. exact (Hn _ _ _ E p q).
Qed.
Lemma element_ok nested v w dts pts : nested_ok nested v -> parse_element L o nested v = Some (w, dts, pts) -> forall p q, In q (fields_in p w) -> ok v p q.
Proof.
  intros Hn H p q. destruct v as [|b|z|f|[|c s]|l|d]; cbn [parse_element] in H; try (injection H as <- _ _; first [solve [intros []]|apply typed_fields, value_typed; exact I]).
  - destruct (is_empty (VList l)); [injection H as <- _ _; intros []|]. destruct (nested (VList l)) as [[[x d1] p1]|] eqn:E; [|discriminate]. injection H as <- _ _. exact (Hn _ _ _ E p q).
  - destruct (is_empty (VDict d)); [injection H as <- _ _; intros []|]. destruct (nested (VDict d)) as [[[x d1] p1]|] eqn:E; [|discriminate]. injection H as <- _ _. exact (Hn _ _ _ E p q).
Qed.
Definition entry_of (chk : bool) (d : dict) (kv : pystr * value) : Prop :=
  (chk = true /\ parsed_type (fst kv) /\ plain (snd kv)) \/ exists v, In (fst kv, v) d /\ forall p q, In q (fields_in p (snd kv)) -> ok v p q.
Lemma geo_update_fields pd g p q : In q (fields_in p (VDict (dupdate pd (geo_dict g)))) -> In q (fields_in p (VDict pd)) \/ exists t, parsed_type t /\ q = p ++ [t].
Proof.
  cbn [fields_in]. destruct (disabled p); [intros [K|[]]; left; left; exact K|]. intros [K|K]; [left; left; exact K|]. apply in_flat_map in K. destruct K as ([k w] & Hk & K). cbn [fst snd] in K.
  assert (D : forall d k0 v0, In (k, w) (dset d k0 v0) -> (k, w) = (k0, v0) \/ In (k, w) d).
  { clear. induction d as [|[k1 v1] d IH]; intros k0 v0 H; cbn [dset] in H; [destruct H as [H|[]]; left; symmetry; exact H|]. destruct (str_eqb k0 k1) eqn:E; (destruct H as [H|H]; [|]); [apply str_eqb_eq in E; subst k1; left; symmetry; exact H|right; right; exact H|right; left; exact H|destruct (IH _ _ H) as [G|G]; [left; exact G|right; right; exact G]]. }
  unfold dupdate, geo_dict in Hk. cbn [fold_left fst snd] in Hk.
  assert (T : forall s t, In q (fields_in (p ++ [k]) w) -> (k, w) = (t, VStr s) -> parsed_type t -> In q (p :: flat_map (fun kv => fields_in (p ++ [fst kv]) (snd kv)) pd) \/ exists t, parsed_type t /\ q = p ++ [t]).
  { intros s t Q E Ht. injection E as -> ->. cbn in Q. destruct Q as [<-|[]]. right. exists t. auto. }
  apply D in Hk. destruct Hk as [E|Hk]; [apply (T _ _ K E); unfold parsed_type; cbn [In]; auto 12|]. apply D in Hk. destruct Hk as [E|Hk]; [apply (T _ _ K E); unfold parsed_type; cbn [In]; auto 12|].
  left. right. apply in_flat_map. exists (k, w). auto.
Qed.
Lemma dict_entries nested chk d parsed dts pts : Forall (fun kv => nested_ok nested (snd kv)) d -> dict_body L o nested chk d = Some (parsed, dts, pts) -> Forall (entry_of chk d) parsed.
Proof.
  intros HF E. apply dict_body_some in E. unfold dict_rest in E. destruct (map_opt _ d) as [parts|] eqn:Ep; [|discriminate]. change (list (pystr * part)) in parts. destruct (add_hints _ _) as [x|] eqn:Ea; [|discriminate]. injection E as <- _ _. apply map_opt_F2 in Ep.
  assert (HP : Forall (fun kp : pystr * part => match snd kp with (Some w, _, _) => exists v, In (fst kp, v) d /\ forall p q, In q (fields_in p w) -> ok v p q | _ => True end) parts).
  { clear Ea. assert (G : forall d', incl d' d -> Forall (fun kv => nested_ok nested (snd kv)) d' -> Forall2 (fun x y => match parse_entry L o nested (fst x) (snd x) with Some p => Some (fst x, p) | None => None end = Some y) d' parts ->
      Forall (fun kp : pystr * part => match snd kp with (Some w, _, _) => exists v, In (fst kp, v) d /\ forall p q, In q (fields_in p w) -> ok v p q | _ => True end) parts); [|exact (G d (incl_refl _) HF Ep)].
    clear HF Ep. intros d' Hi HF F. induction F as [|[k v] y d' parts E _ IH]; [constructor|]. inversion HF as [|? ? F1 F2]; subst. constructor; [|apply IH; [intros z Hz; apply Hi; right; exact Hz|exact F2]].
    cbn [fst snd] in *. destruct (parse_entry L o nested k v) as [[[[w|] d1] p1]|] eqn:Ee; [| |discriminate]; injection E as <-; cbn [fst snd]; [|exact I]. exists v. split; [apply Hi; left; reflexivity|]. exact (entry_ok nested k v w d1 p1 F1 Ee). }
  refine (add_hints_members (entry_of chk d) _ _ _ _ Ea _).
  - intros k g pd [(_ & _ & [])|(v & Hv & H)]. right. exists v. split; [exact Hv|]. intros p q Hq. apply geo_update_fields in Hq. destruct Hq as [Hq|(t & Ht & ->)]; [exact (H p q Hq)|]. exists []. split; [left; reflexivity|]. right. exists t. auto.
  - assert (HS : forall acc, Forall (entry_of chk d) acc -> Forall (entry_of chk d) (fold_left set_part parts acc)).
    { clear Ea Ep. induction HP as [|[k [[[w|] d1] p1]] parts H1 HP IH]; intros acc Ha; cbn [fold_left set_part]; [exact Ha| |exact (IH acc Ha)]. apply IH, forall_dset; [exact Ha|]. right. exact H1. }
    apply HS. destruct chk; [|constructor]. destruct (l_geojson L d) as [g|]; [|constructor]. unfold geo_dict. apply Forall_cons; [|apply Forall_cons; [|apply Forall_nil]]; (left; split; [reflexivity|]; split; [unfold parsed_type; cbn [fst In]; auto 12|exact I]).
Qed.
Lemma dict_ok chk d parsed p q : Forall (entry_of chk d) parsed -> In q (fields_in p (VDict parsed)) ->
  q = p \/ (chk = true /\ exists t, parsed_type t /\ q = p ++ [t]) \/ exists n, has_field n (VDict d) /\ (q = p ++ n \/ exists t, parsed_type t /\ q = p ++ n ++ [t]).
Proof.
  intros H K. cbn [fields_in] in K. destruct K as [<-|K]; [left; reflexivity|]. right. destruct (disabled p); [destruct K|]. apply in_flat_map in K. destruct K as ([k w] & Hk & K). rewrite Forall_forall in H. destruct (H _ Hk) as [(C & H1 & H2)|(v & Hv & G)]; cbn [fst snd] in *.
  - left. split; [exact C|]. apply (plain_fields _ _ _ H2) in K. exists k. auto.
  - right. destruct (G _ _ K) as (n & Hn & E). exists (k :: n). split.
    + destruct Hn as [->|Hn]; [exact (hf_here k v d Hv)|exact (hf_in k n v d Hv Hn)].
    + change (p ++ k :: n) with (p ++ [k] ++ n). change (p ++ (k :: n) ++ ?t) with (p ++ [k] ++ n ++ t). destruct E as [->|(t & Ht & ->)]; [left; rewrite app_assoc; reflexivity|right; exists t; split; [exact Ht|]; rewrite <- app_assoc; reflexivity].
Qed.
Lemma all_nested_ok v : nested_ok (parse_nested L o) v.
Proof.
  induction v as [|b|z|f|s|l IH|d IH] using value_ind'; intros w dts pts H p q K; cbn [parse_nested] in H; try discriminate.
  - destruct (list_body L o (parse_nested L o) l) as [[[ws d1] p1]|] eqn:E; [|discriminate]. injection H as <- _ _. unfold list_body in E. destruct (map_opt _ l) as [ps|] eqn:Ep; [|discriminate]. injection E as <- _ _. apply map_opt_F2 in Ep.
    cbn [fields_in] in K. apply in_flat_map in K. destruct K as (w & Hw & K). apply in_map_iff in Hw. destruct Hw as ([[w' d2] p2] & Ew & Hw). cbn [fst] in Ew. subst w'.
    assert (G : exists x, In x l /\ parse_element L o (parse_nested L o) x = Some (w, d2, p2)).
    { clear - Ep Hw. induction Ep as [|x y l ps E _ IH]; [destruct Hw|]. destruct Hw as [->|Hw]; [exists x; split; [left; reflexivity|exact E]|]. destruct (IH Hw) as (x' & A & B). exists x'. split; [right; exact A|exact B]. }
    destruct G as (x & Hx & Ex). rewrite Forall_forall in IH. destruct (element_ok _ x w d2 p2 (IH x Hx) Ex p q K) as (n & Hn & Eq). exists n. split; [|exact Eq]. destruct Hn as [Hn|Hn]; [left; exact Hn|right; exact (hf_item n x l Hx Hn)].
  - destruct (dict_body L o (parse_nested L o) true d) as [[[y d1] p1]|] eqn:E; [|discriminate]. injection H as <- _ _. pose proof (dict_entries _ _ _ _ _ _ IH E) as HE.
    destruct (dict_ok true d y p q HE K) as [->|[(_ & t & Ht & ->)|(n & Hn & Eq)]]; [apply ok_here|exists []; split; [left; reflexivity|right; exists t; auto]|exists n; split; [right; exact Hn|exact Eq]].
Qed.
Lemma parse_fields d r q : parse L o d = Some r -> In q (doc_fields r) -> q = [lit "data"] \/ exists n, has_field n (VDict d) /\ (q = lit "data" :: n \/ exists t, parsed_type t /\ q = lit "data" :: n ++ [t]).
Proof.
  intros H K. unfold parse in H. destruct (dict_body L o (parse_nested L o) false d) as [[[y d1] p1]|] eqn:E; [|discriminate]. injection H as <-. unfold doc_fields in K. cbn [p_parsed] in K.
  assert (HE : Forall (entry_of false d) y) by (refine (dict_entries _ _ _ _ _ _ _ E); apply Forall_forall; intros kv _; apply all_nested_ok).
  destruct (dict_ok false d y _ q HE K) as [->|[(C & _)|G]]; [left; reflexivity|discriminate|right; exact G].
Qed.
End Above.

(** ** From below *)
Lemma keys_not_disabled q : Forall key_ok q -> disabled (lit "data" :: q) = false.
Proof.
  intro H. destruct q as [|k q]; [vm_compute; reflexivity|]. destruct (exists_last (l := k :: q) ltac:(discriminate)) as (p & t & E). rewrite E in *. apply Forall_app in H. destruct H as [_ H]. inversion H as [|? ? (A & B & _) _]; subst.
  unfold disabled. change (join dot (lit "data" :: p ++ [t])) with (data_path (p ++ [t])). rewrite data_path_snoc, (mapped_none _ t B A). reflexivity.
Qed.
Lemma place_keys s : forall v w, at_place s v = Some w -> forall k, In k (names s) -> key_in k v.
Proof.
  induction s as [|[k|n] s IH]; intros v w H c Hc; cbn [at_place names] in *; [destruct Hc| |].
  - destruct v as [| | | | | |d]; try discriminate. destruct (dget d k) as [x|] eqn:E; [|discriminate]. apply dget_In in E. destruct Hc as [->|Hc]; [exact (key_here c d x E)|exact (key_dict c d k x E (IH x w H c Hc))].
  - destruct v as [| | | | |l|]; try discriminate. destruct (nth_error l n) as [x|] eqn:E; [|discriminate]. apply nth_error_In in E. exact (key_list c l x E (IH x w H c Hc)).
Qed.
Lemma here_field p w : (exists d, w = VDict d) \/ (plain w /\ w <> VNone) -> In p (fields_in p w).
Proof. intros [(d & ->)|[A B]]; [left; reflexivity|]. destruct w; try contradiction; left; reflexivity. Qed.
Lemma place_field s : forall p v w, at_place s v = Some w -> (exists d, w = VDict d) \/ (plain w /\ w <> VNone) -> (forall a b, names s = a ++ b -> b <> [] -> disabled (p ++ a) = false) -> In (p ++ names s) (fields_in p v).
Proof.
  induction s as [|[k|n] s IH]; intros p v w H Hw Hd; cbn [at_place names] in *.
  - injection H as ->. rewrite app_nil_r. exact (here_field p w Hw).
  - destruct v as [| | | | | |d]; try discriminate. destruct (dget d k) as [x|] eqn:E; [|discriminate]. apply dget_In in E. cbn [fields_in]. right. pose proof (Hd [] (k :: names s) eq_refl ltac:(discriminate)) as D. rewrite app_nil_r in D. rewrite D. apply in_flat_map. exists (k, x). split; [exact E|]. cbn [fst snd].
    change (p ++ k :: names s) with (p ++ [k] ++ names s). rewrite app_assoc. refine (IH (p ++ [k]) x w H Hw _). intros a b Eb Nb. rewrite <- app_assoc. apply (Hd (k :: a) b); [cbn [app]; rewrite Eb; reflexivity|exact Nb].
  - destruct v as [| | | | |l|]; try discriminate. destruct (nth_error l n) as [x|] eqn:E; [|discriminate]. apply nth_error_In in E. cbn [fields_in]. apply in_flat_map. exists x. split; [exact E|]. exact (IH p x w H Hw Hd).
Qed.
Lemma names_app a b : names (a ++ b) = names a ++ names b.
Proof. induction a as [|[k|n] a IH]; cbn [app names]; [reflexivity|rewrite IH; reflexivity|exact IH]. Qed.
Lemma doc_field r s w : at_place s (VDict (p_parsed r)) = Some w -> (exists d, w = VDict d) \/ (plain w /\ w <> VNone) -> (forall a b, names s = a ++ b -> b <> [] -> Forall key_ok a) -> In (lit "data" :: names s) (doc_fields r).
Proof. intros H Hw K. apply (place_field s [lit "data"] _ w H Hw). intros a b E N. apply keys_not_disabled, (K a b E N). Qed.
Lemma scalar_plain a : parsed_as_value a -> plain a /\ a <> VNone.
Proof. destruct a as [| | | |[|]| |]; cbn; intro H; split; try exact I; try discriminate; contradiction. Qed.
Lemma value_subfields L o a : parsed_as_value a -> forall t x, dget (parse_value L o a) t = Some x -> plain x /\ x <> VNone.
Proof.
  intros H t x E. destruct (scalar_plain a H) as [Ha Hn]. apply dget_In in E. pose proof (value_members (fun _ => False) L o a Ha) as M. rewrite Forall_forall in M. destruct (M _ E) as [[[] _]|(_ & B & _ & C)]. cbn [fst snd] in *. split; [exact B|].
  destruct (str_eq_dec t pt_u) as [->|Ne]; [|exact (C Ne)]. unfold parse_value in E. cbv zeta in E. destruct E as [E|[E|[E|E]]]; [injection E as <-; exact Hn|discriminate E|discriminate E|]. intros ->.
  unfold opt_dict, geo_dict in E. destruct (l_wkt L _), (bool_of _), (number_of _ _ _), (first_date _ _ _); cbn [app In] in E; intuition discriminate.
Qed.
Lemma value_fields db pad L rec o r s a : db_ok db -> value_points L -> one_hint_each o -> parse L o (prepare_record_data db pad rec) = Some r -> at_place s (VDict (prepare_record_data db pad rec)) = Some a -> parsed_as_value a ->
  Forall key_ok (names s) /\ In (lit "data" :: names s) (doc_fields r) /\ forall t, In t (dkeys (parse_value L o a)) -> In (lit "data" :: names s ++ [t]) (doc_fields r).
Proof.
  intros Hdb VP OK P Hs Ha. assert (K : Forall key_ok (names s)) by (apply Forall_forall; intros k Hk; exact (record_key_ok db pad rec Hdb k (place_keys s _ _ Hs k Hk))).
  assert (G : exists f, at_place s (VDict (p_parsed r)) = Some (VDict f) /\ forall t, In t (dkeys (parse_value L o a)) -> exists x, dget f t = Some x /\ plain x /\ x <> VNone).
  { assert (D : forall t, In t (dkeys (parse_value L o a)) -> exists x, dget (parse_value L o a) t = Some x /\ plain x /\ x <> VNone).
    { intros t Ht. destruct (dget (parse_value L o a) t) as [x|] eqn:E; [exists x; split; [reflexivity|exact (value_subfields L o a Ha t x E)]|]. exfalso. apply dget_None in E. exact (E Ht). }
    destruct s as [|c s]; [injection Hs as <-; destruct Ha|]. destruct (exists_last (l := c :: s) ltac:(discriminate)) as (p & e & E). rewrite E in *. clear c s E. rewrite at_app in Hs. destruct (at_place p _) as [v|] eqn:Ep; [|discriminate]. destruct e as [k|n]; cbn [at_place] in Hs.
    - destruct v as [| | | | | |d]; try discriminate. destruct (dget d k) as [x|] eqn:Ek; [|discriminate]. injection Hs as ->. destruct (C77_fields L VP o OK _ r (record_wf db pad rec) P p d k a Ep Ek Ha) as (f & g & F & _ & Wg). exists f. split; [exact F|]. intros t Ht. destruct g as [[gp gs]|]; [|rewrite Wg; exact (D t Ht)]. destruct Wg as (W1 & W2 & W3).
      destruct (str_eq_dec t pt_gp) as [->|N1]; [exists (VStr gp); split; [exact W1|split; [exact I|discriminate]]|]. destruct (str_eq_dec t pt_gs) as [->|N2]; [exists (VStr gs); split; [exact W2|split; [exact I|discriminate]]|]. rewrite (W3 t N1 N2). exact (D t Ht).
    - destruct v as [| | | | |l|]; try discriminate. destruct (nth_error l n) as [x|] eqn:Ek; [|discriminate]. injection Hs as ->. exists (parse_value L o a). split; [|exact D]. exact (C77_items L VP o _ r (record_wf db pad rec) P p l n a Ep Ek Ha). }
  destruct G as (f & F & D). split; [exact K|]. split.
  - apply (doc_field r s _ F); [left; exists f; reflexivity|]. intros x y E _. rewrite E in K. apply Forall_app in K. apply K.
  - intros t Ht. destruct (D t Ht) as (x & X1 & X2). assert (N : names (s ++ [Key t]) = names s ++ [t]) by (rewrite names_app; reflexivity). rewrite <- N. apply (doc_field r (s ++ [Key t]) x); [rewrite at_app, F; cbn [at_place]; rewrite X1; reflexivity|right; exact X2|].
    intros u y E Ny. rewrite N in E. destruct (exists_last Ny) as (y' & z & ->). rewrite app_assoc in E. apply app_inj_tail in E. destruct E as [E _]. rewrite E in K. apply Forall_app in K. apply K.
Qed.

(** ** Property C98 *)
Lemma mapping_length rs fs : mapping_for rs fs -> length fs = length (nodup path_dec (predefined ++ flat_map doc_fields rs)).
Proof. intros [N H]. apply same_length; [exact N|apply NoDup_nodup|]. intro p. rewrite H, nodup_In, in_app_iff, in_flat_map. reflexivity. Qed.
Lemma predefined_NoDup : NoDup predefined.
Proof. vm_compute. repeat constructor; cbn; intuition discriminate. Qed.
Lemma predefined_within : (N.of_nat (length predefined) <= field_limit)%N.
Proof. vm_compute. discriminate. Qed.
(** Documents are all indexed, in whatever order, exactly when the mapping that holds all their fields is within the limit. *)
Theorem C98_taken_exactly : forall rs fs, mapping_for rs fs -> (put_all predefined rs <> None <-> (N.of_nat (length fs) <= 4000)%N).
Proof. intros rs fs H. rewrite (put_all_iff rs predefined predefined_NoDup predefined_within), (mapping_length rs fs H). reflexivity. Qed.
Print Assumptions C98_taken_exactly.

Definition all_types : list pystr := [pt_u; pt_n; pt_d; pt_b; pt_t; pt_k; pt_gp; pt_gs].
Lemma all_types_In t : parsed_type t -> In t all_types.
Proof. unfold parsed_type, all_types. cbn [In]. intuition. Qed.
(** Records that have at most 443 fields between them (counting those of nested dicts and the _id) are all indexed. *)
Theorem C98_within_partial : forall db pad L recs rs fields, documents db pad L recs rs ->
  (forall rec p, In rec recs -> has_field p (VDict (prepare_record_data db pad rec)) -> In p fields) -> length fields <= 443 ->
  put_all predefined rs <> None.
Proof.
  intros db pad L recs rs fields D HF Hl. apply (put_all_iff rs predefined predefined_NoDup predefined_within).
  assert (I : incl (nodup path_dec (predefined ++ flat_map doc_fields rs)) (predefined ++ [lit "data"] :: flat_map (with_types all_types) fields)).
  { intros q Hq. rewrite nodup_In, in_app_iff in Hq. apply in_app_iff. destruct Hq as [Hq|Hq]; [left; exact Hq|right]. apply in_flat_map in Hq. destruct Hq as (r & Hr & Hq).
    assert (G : exists rec o, In rec recs /\ parse L o (prepare_record_data db pad rec) = Some r).
    { clear - D Hr. induction D as [|rec x recs rs (o & _ & E) _ IH]; [destruct Hr|]. destruct Hr as [->|Hr]; [exists rec, o; split; [left; reflexivity|exact E]|]. destruct (IH Hr) as (rec' & o' & A & B). exists rec', o'. split; [right; exact A|exact B]. }
    destruct G as (rec & o & Hrec & P). destruct (parse_fields L o _ r q P Hq) as [->|(n & Hn & E)]; [left; reflexivity|right]. apply in_flat_map. exists n. split; [exact (HF rec n Hrec Hn)|]. apply with_types_In. destruct E as [E|(t & Ht & E)]; [left; exact E|right; exists t; split; [exact (all_types_In t Ht)|exact E]]. }
  apply NoDup_incl_length in I; [|apply NoDup_nodup]. rewrite app_length in I. cbn [length] in I. rewrite (length_flat_const (with_types all_types) 9) in I by (intro f; apply with_types_length). change (length predefined) with 9 in I. unfold field_limit. lia.
Qed.
Print Assumptions C98_within_partial.

Lemma place_nonempty d s a : at_place s (VDict d) = Some a -> parsed_as_value a -> names s <> [].
Proof. intros H Ha. destruct s as [|[k|n] s]; cbn in *; [injection H as <-; destruct Ha|discriminate|discriminate]. Qed.
Lemma lower db pad L rs ts fs : db_ok db -> value_points L -> NoDup ts -> Forall parsed_type ts -> NoDup fs ->
  (forall f, In f fs -> exists rec r o s a, In r rs /\ one_hint_each o /\ parse L o (prepare_record_data db pad rec) = Some r /\ at_place s (VDict (prepare_record_data db pad rec)) = Some a /\ parsed_as_value a /\ names s = f) ->
  (forall f t, In f fs -> In t ts -> exists rec r o s a, In r rs /\ one_hint_each o /\ parse L o (prepare_record_data db pad rec) = Some r /\ at_place s (VDict (prepare_record_data db pad rec)) = Some a /\ parsed_as_value a /\ names s = f /\ In t (dkeys (parse_value L o a))) ->
  rs <> [] -> 10 + S (length ts) * length fs <= length (nodup path_dec (predefined ++ flat_map doc_fields rs)).
Proof.
  intros Hdb VP Nt Ht Nf H1 H2 Nr.
  assert (N : NoDup (predefined ++ [lit "data"] :: flat_map (with_types ts) fs)).
  { apply with_types_NoDup; try assumption. intros f Hf. destruct (H1 f Hf) as (rec & r & o & s & a & Hr & OK & P & Hs & Ha & <-). split; [exact (place_nonempty _ s a Hs Ha)|]. apply (value_fields db pad L rec o r s a Hdb VP OK P Hs Ha). }
  assert (I : incl (predefined ++ [lit "data"] :: flat_map (with_types ts) fs) (nodup path_dec (predefined ++ flat_map doc_fields rs))).
  { intros q Hq. apply in_app_iff in Hq. rewrite nodup_In, in_app_iff, in_flat_map. destruct Hq as [Hq|[<-|Hq]]; [left; exact Hq| |]; right.
    - destruct rs as [|r rs]; [contradiction|]. exists r. split; left; reflexivity.
    - apply in_flat_map in Hq. destruct Hq as (f & Hf & Hq). apply with_types_In in Hq. destruct Hq as [->|(t & Hti & ->)].
      + destruct (H1 f Hf) as (rec & r & o & s & a & Hr & OK & P & Hs & Ha & <-). exists r. split; [exact Hr|]. apply (value_fields db pad L rec o r s a Hdb VP OK P Hs Ha).
      + destruct (H2 f t Hf Hti) as (rec & r & o & s & a & Hr & OK & P & Hs & Ha & <- & K). exists r. split; [exact Hr|]. destruct (value_fields db pad L rec o r s a Hdb VP OK P Hs Ha) as (_ & _ & G). exact (G t K). }
  apply (NoDup_incl_length N) in I. rewrite app_length in I. cbn [length] in I. rewrite (length_flat_const (with_types ts) (S (length ts))) in I by (intro f; apply with_types_length). change (length predefined) with 9 in I. lia.
Qed.
Lemma too_large rs : (field_limit < N.of_nat (length (nodup path_dec (predefined ++ flat_map doc_fields rs))))%N -> put_all predefined rs = None.
Proof. intro H. pose proof (put_all_iff rs predefined predefined_NoDup predefined_within) as K. destruct (put_all predefined rs) as [m|] eqn:E; [|reflexivity]. assert (F : Some m <> None) by discriminate. apply K in F. lia. Qed.
Lemma documents_doc db pad L recs rs rec : documents db pad L recs rs -> In rec recs -> exists r o, In r rs /\ one_hint_each o /\ parse L o (prepare_record_data db pad rec) = Some r.
Proof. intros D H. induction D as [|x r recs rs (o & A & B) _ IH]; [destruct H|]. destruct H as [->|H]; [exists r, o; split; [left; reflexivity|auto]|]. destruct (IH H) as (r' & o' & C & E). exists r', o'. split; [right; exact C|exact E]. Qed.
(** Records with values in 998 fields or more are not all indexed, whatever the values and the options are. *)
Theorem C98_too_many : forall db pad L recs rs fs, db_ok db -> value_points L -> documents db pad L recs rs ->
  NoDup fs -> Forall (holds_value db pad recs) fs -> 998 <= length fs -> put_all predefined rs = None.
Proof.
  intros db pad L recs rs fs Hdb VP D Nf HF Hl. rewrite Forall_forall in HF. apply too_large.
  assert (G : forall f, In f fs -> exists rec r o s a, In r rs /\ one_hint_each o /\ parse L o (prepare_record_data db pad rec) = Some r /\ at_place s (VDict (prepare_record_data db pad rec)) = Some a /\ parsed_as_value a /\ names s = f).
  { intros f Hf. destruct (HF f Hf) as (rec & s & a & Hr & Hs & E & Ha). destruct (documents_doc _ _ _ _ _ _ D Hr) as (r & o & A & B & C). exists rec, r, o, s, a. auto 10. }
  assert (K : 10 + S (length [pt_u; pt_t; pt_k]) * length fs <= length (nodup path_dec (predefined ++ flat_map doc_fields rs))).
  { apply (lower db pad L rs [pt_u; pt_t; pt_k] fs Hdb VP); try assumption.
    - vm_compute. repeat constructor; cbn; intuition discriminate.
    - repeat apply Forall_cons; try apply Forall_nil; unfold parsed_type; cbn [In]; auto 12.
    - intros f t Hf Hti. destruct (G f Hf) as (rec & r & o & s & a & A & B & C & E & F & Z). exists rec, r, o, s, a. repeat (split; [assumption|]). unfold parse_value, dkeys. cbv zeta. rewrite map_app. apply in_app_iff. left. exact Hti.
    - destruct fs as [|f fs]; [cbn in Hl; lia|]. destruct (G f (or_introl eq_refl)) as (rec & r & o & s & a & A & _). intros ->. destruct A. }
  cbn [length] in K. unfold field_limit. lia.
Qed.
Print Assumptions C98_too_many.

Lemma put_incl m r m' : put m r = Some m' -> incl m m' /\ NoDup m'.
Proof. unfold put. cbv zeta. destruct (_ <=? _)%N; [|discriminate]. intro H. injection H as <-. split; [|apply NoDup_nodup]. intros x Hx. apply nodup_In, in_app_iff. left. exact Hx. Qed.
Lemma later_incl rs : forall m, incl m (fold_left put_or_not rs m).
Proof. induction rs as [|r rs IH]; intro m; cbn [fold_left]; [apply incl_refl|]. eapply incl_tran; [|apply IH]. unfold put_or_not. destruct (put m r) as [m'|] eqn:E; [exact (proj1 (put_incl m r m' E))|apply incl_refl]. Qed.
(** A document that is rejected is rejected for good: fields are never taken out of the mapping. *)
Theorem C98_for_good : forall before r after, let m := fold_left put_or_not before predefined in put m r = None -> put (fold_left put_or_not after m) r = None.
Proof.
  intros before r after m H. unfold put in *. cbv zeta in *. destruct (N.leb_spec (N.of_nat (length (nodup path_dec (m ++ doc_fields r)))) field_limit) as [|Gt]; [discriminate|].
  destruct (N.leb_spec (N.of_nat (length (nodup path_dec (fold_left put_or_not after m ++ doc_fields r)))) field_limit) as [Le|]; [|reflexivity]. exfalso.
  assert (K : length (nodup path_dec (m ++ doc_fields r)) <= length (nodup path_dec (fold_left put_or_not after m ++ doc_fields r))); [|lia]. apply NoDup_incl_length; [apply NoDup_nodup|]. intros x Hx. rewrite nodup_In, in_app_iff in *. destruct Hx as [Hx|Hx]; [left; exact (later_incl after m x Hx)|right; exact Hx].
Qed.
Print Assumptions C98_for_good.

(** As stated the property is false: four records with 444 fields, whose values are numbers, dates, booleans and geometries. *)
Definition limit_lib : lib := Lib (fun s => s) (fun _ _ => lit "1.5") (fun s => if str_eqb s (lit "5") then Some (S754_finite false 5 0) else None)
  (fun s fmt => match toks_of fmt with Some ts => parse_to_timestamp s ts | None => None end)
  (fun s => if str_eqb s (lit "POINT (1 2)") then Some (s, s) else None) (fun _ => None) (fun _ => false) (fun _ _ _ _ => None).
Definition limit_opts : options := Opts [lit "true"] [lit "false"] [DATE_STR] [] 8191 (lit "{0:.15g}").
Definition limit_key (n : nat) : pystr := lit "f" ++ map (fun d => N.of_nat (48 + d)) [n / 100; n / 10 mod 10; n mod 10].
Definition limit_record (fields : nat) (text : pystr) : record := Rec text (map (fun n => (KS (limit_key n), OStr text)) (seq 0 fields)).
Definition limit_texts : list pystr := [lit "5"; lit "2024-01-01"; lit "true"; lit "POINT (1 2)"].
Definition limit_db : chardb := CDB (fun c => N.ltb c 32) (fun c => N.eqb c 32).
Definition limit_records (fields : nat) : list record := map (limit_record fields) limit_texts.
Definition limit_keys : list pystr := map limit_key (seq 0 443) ++ [lit "_id"].
Definition limit_doc (fields : nat) (text : pystr) : parsed_data :=
  match parse limit_lib limit_opts (prepare_record_data limit_db true (limit_record fields text)) with Some r => r | None => PData [] [] [] end.
Lemma flat_fields d p : Forall (fun kv => plain (snd kv)) d -> has_field p (VDict d) -> exists k, p = [k] /\ In k (dkeys d).
Proof.
  intros H K. rewrite Forall_forall in H. inversion K as [k w e Hin|k q w e Hin Hq|]; subst.
  - exists k. split; [reflexivity|]. exact (in_map fst _ _ Hin).
  - pose proof (H _ Hin) as Hp. cbn [snd] in Hp. destruct w; try destruct Hp; inversion Hq.
Qed.
Lemma limit_data text : In text limit_texts -> prepare_record_data limit_db true (limit_record 443 text) = map (fun k => (k, VStr text)) limit_keys.
Proof. intro H. unfold limit_texts in H. cbn [In] in H. destruct H as [<-|[<-|[<-|[<-|[]]]]]; vm_compute; reflexivity. Qed.
Lemma limit_some n text : match parse limit_lib limit_opts (prepare_record_data limit_db true (limit_record n text)) with Some _ => true | None => false end = true ->
  parse limit_lib limit_opts (prepare_record_data limit_db true (limit_record n text)) = Some (limit_doc n text).
Proof. unfold limit_doc. destruct (parse _ _ _); [reflexivity|discriminate]. Qed.
Lemma limit_parsed text : In text limit_texts -> parse limit_lib limit_opts (prepare_record_data limit_db true (limit_record 443 text)) = Some (limit_doc 443 text).
Proof. intro H. apply limit_some. unfold limit_texts in H. cbn [In] in H. destruct H as [<-|[<-|[<-|[<-|[]]]]]; vm_compute; reflexivity. Qed.
Lemma limit_db_ok : db_ok limit_db.
Proof. repeat constructor. Qed.
Lemma limit_points : value_points limit_lib.
Proof. intros lon lat r n H. destruct (H eq_refl). Qed.
Lemma limit_hints : one_hint_each limit_opts.
Proof. constructor. Qed.
Theorem C98_refuted : exists db pad L recs rs fields, db_ok db /\ value_points L /\ documents db pad L recs rs /\
  (forall rec p, In rec recs -> has_field p (VDict (prepare_record_data db pad rec)) -> In p fields) /\ length fields = 444 /\
  forall rs', Permutation rs rs' -> put_all predefined rs' = None.
Proof.
  exists limit_db, true, limit_lib, (limit_records 443), (map (limit_doc 443) limit_texts), (map (fun k => [k]) limit_keys).
  split; [exact limit_db_ok|]. split; [exact limit_points|].
  split; [|split; [|split]].
  - unfold documents, limit_records. assert (G : forall l, incl l limit_texts -> Forall2 (fun rec r => exists o, one_hint_each o /\ parse limit_lib o (prepare_record_data limit_db true rec) = Some r) (map (limit_record 443) l) (map (limit_doc 443) l)); [|exact (G _ (incl_refl _))].
    induction l as [|x l IH]; intro Hi; cbn [map]; constructor; [exists limit_opts; split; [exact limit_hints|]; apply limit_parsed, Hi; left; reflexivity|apply IH; intros y Hy; apply Hi; right; exact Hy].
  - intros rec p Hr Hp. apply in_map_iff in Hr. destruct Hr as (text & <- & Ht). rewrite (limit_data text Ht) in Hp. apply flat_fields in Hp.
    + destruct Hp as (k & -> & Hk). apply in_map_iff. exists k. split; [reflexivity|]. unfold dkeys in Hk. rewrite map_map, map_id in Hk. exact Hk.
    + apply Forall_forall. intros kv Hkv. apply in_map_iff in Hkv. destruct Hkv as (k & <- & _). exact I.
  - vm_compute. reflexivity.
  - intros rs' HP. apply too_large.
    assert (K : 10 + S (length all_types) * length (map (fun k => [k]) limit_keys) <= length (nodup path_dec (predefined ++ flat_map doc_fields rs'))).
    { assert (Nk : NoDup limit_keys) by (assert (E : nodup str_eq_dec limit_keys = limit_keys) by (vm_compute; reflexivity); rewrite <- E; apply NoDup_nodup).
      assert (G : forall f text, In f (map (fun k => [k]) limit_keys) -> In text limit_texts -> exists s, at_place s (VDict (prepare_record_data limit_db true (limit_record 443 text))) = Some (VStr text) /\ names s = f).
      { intros f text Hf Ht. apply in_map_iff in Hf. destruct Hf as (k & <- & Hk). exists [Key k]. split; [|reflexivity]. rewrite (limit_data text Ht). cbn [at_place].
        destruct (dget (map (fun k0 : pystr => (k0, VStr text)) limit_keys) k) as [w|] eqn:E.
        - apply dget_In, in_map_iff in E. destruct E as (k' & E & _). injection E as _ <-. reflexivity.
        - apply dget_None in E. exfalso. apply E. unfold dkeys. rewrite map_map, map_id. exact Hk. }
      assert (V : forall text, In text limit_texts -> parsed_as_value (VStr text)) by (intros text Ht; unfold limit_texts in Ht; cbn [In] in Ht; destruct Ht as [<-|[<-|[<-|[<-|[]]]]]; exact I).
      assert (R : forall text, In text limit_texts -> In (limit_doc 443 text) rs') by (intros text Ht; apply (Permutation_in _ HP), in_map, Ht).
      apply (lower limit_db true limit_lib rs' all_types _ limit_db_ok limit_points).
      - assert (E : nodup str_eq_dec all_types = all_types) by (vm_compute; reflexivity). rewrite <- E. apply NoDup_nodup.
      - unfold all_types. repeat apply Forall_cons; try apply Forall_nil; unfold parsed_type; cbn [In]; auto 12.
      - apply FinFun.Injective_map_NoDup; [intros a b E; injection E as E; exact E|exact Nk].
      - intros f Hf. assert (Ht : In (lit "5") limit_texts) by (left; reflexivity). destruct (G f _ Hf Ht) as (s & S1 & S2). exists (limit_record 443 (lit "5")), (limit_doc 443 (lit "5")), limit_opts, s, (VStr (lit "5")). split; [exact (R _ Ht)|]. split; [exact limit_hints|]. split; [exact (limit_parsed _ Ht)|]. split; [exact S1|]. split; [exact (V _ Ht)|exact S2].
      - intros f t Hf Ht. assert (T : exists text, In text limit_texts /\ In t (dkeys (parse_value limit_lib limit_opts (VStr text)))).
        { unfold all_types in Ht. cbn [In] in Ht. unfold limit_texts. destruct Ht as [<-|[<-|[<-|[<-|[<-|[<-|[<-|[<-|[]]]]]]]]].
          1, 2, 5, 6: exists (lit "5"). 5: exists (lit "2024-01-01"). 6: exists (lit "true"). 7, 8: exists (lit "POINT (1 2)").
          all: split; [cbn [In]; auto 6|]. all: vm_compute; auto 8. }
        destruct T as (text & T1 & T2). destruct (G f _ Hf T1) as (s & S1 & S2). exists (limit_record 443 text), (limit_doc 443 text), limit_opts, s, (VStr text). split; [exact (R _ T1)|]. split; [exact limit_hints|]. split; [exact (limit_parsed _ T1)|]. split; [exact S1|]. split; [exact (V _ T1)|]. split; [exact S2|exact T2].
      - intros ->. apply Permutation_sym, Permutation_nil in HP. discriminate HP. }
    assert (E1 : length all_types = 8) by reflexivity. assert (E2 : length (map (fun k => [k]) limit_keys) = 444) by (vm_compute; reflexivity). rewrite E1, E2 in K. unfold field_limit. lia.
Qed.
Print Assumptions C98_refuted.

(** Examples: four records with four fields are indexed, and their mapping has 46 fields. *)
Example C98_example : exists rs fs, documents limit_db true limit_lib (limit_records 3) rs /\ length rs = 4 /\
  (forall rec p, In rec (limit_records 3) -> has_field p (VDict (prepare_record_data limit_db true rec)) -> In p (map (fun k => [k]) [lit "f000"; lit "f001"; lit "f002"; lit "_id"])) /\
  mapping_for rs fs /\ length fs = 46 /\ put_all predefined rs <> None.
Proof.
  exists (map (limit_doc 3) limit_texts), (nodup path_dec (predefined ++ flat_map doc_fields (map (limit_doc 3) limit_texts))).
  split; [repeat constructor; exists limit_opts; (split; [exact limit_hints|vm_compute; reflexivity])|]. split; [reflexivity|]. split.
  - intros rec p Hr Hp. cbn [limit_records limit_texts map In] in Hr. destruct Hr as [<-|[<-|[<-|[<-|[]]]]]; (apply flat_fields in Hp; [destruct Hp as (k & -> & Hk); apply in_map_iff; exists k; split; [reflexivity|]; revert Hk; vm_compute; tauto|vm_compute; repeat constructor]).
  - split; [|split; [vm_compute; reflexivity|vm_compute; discriminate]]. split; [apply NoDup_nodup|]. intro p. rewrite nodup_In, in_app_iff, in_flat_map. reflexivity.
Qed.
(** A record with values in 998 fields (and its _id). *)
Example C98_too_many_example : exists r fs, documents limit_db true limit_lib [limit_record 998 (lit "x")] [r] /\ NoDup fs /\ Forall (holds_value limit_db true [limit_record 998 (lit "x")]) fs /\ length fs = 998.
Proof.
  exists (limit_doc 998 (lit "x")), (map (fun k => [k]) (map limit_key (seq 0 998))). split; [|split; [|split]].
  - constructor; [|constructor]. exists limit_opts. split; [exact limit_hints|]. apply limit_some. vm_compute. reflexivity.
  - apply FinFun.Injective_map_NoDup; [intros a b E; injection E as E; exact E|]. assert (E : nodup str_eq_dec (map limit_key (seq 0 998)) = map limit_key (seq 0 998)) by (vm_compute; reflexivity). rewrite <- E. apply NoDup_nodup.
  - assert (E : prepare_record_data limit_db true (limit_record 998 (lit "x")) = map (fun k => (k, VStr (lit "x"))) (map limit_key (seq 0 998) ++ [lit "_id"])) by (vm_compute; reflexivity).
    apply Forall_forall. intros f Hf. apply in_map_iff in Hf. destruct Hf as (k & <- & Hk).
    exists (limit_record 998 (lit "x")), [Key k], (VStr (lit "x")). split; [left; reflexivity|]. split; [|split; [reflexivity|exact I]]. rewrite E. cbn [at_place].
    destruct (dget (map (fun k0 : pystr => (k0, VStr (lit "x"))) (map limit_key (seq 0 998) ++ [lit "_id"])) k) as [w|] eqn:G.
    + apply dget_In, in_map_iff in G. destruct G as (k' & G & _). injection G as _ <-. reflexivity.
    + apply dget_None in G. exfalso. apply G. unfold dkeys. rewrite map_map, map_id. apply in_app_iff. left. exact Hk.
  - rewrite !map_length, seq_length. reflexivity.
Qed.
Lemma rejected_one rs : forall m, put_all m rs = None -> exists a r b, rs = a ++ r :: b /\ put (fold_left put_or_not a m) r = None.
Proof.
  induction rs as [|r rs IH]; intros m H; cbn [put_all] in H; [discriminate|]. destruct (put m r) as [m'|] eqn:E; [|exists [], r, rs; auto].
  destruct (IH m' H) as (a & x & b & -> & K). exists (r :: a), x, b. split; [reflexivity|]. cbn [fold_left]. unfold put_or_not at 2. rewrite E. exact K.
Qed.
Example C98_for_good_example : exists before r, put (fold_left put_or_not before predefined) r = None /\ put_or_not (fold_left put_or_not before predefined) r = fold_left put_or_not before predefined.
Proof.
  destruct C98_refuted as (db & pad & L & recs & rs & fields & _ & _ & _ & _ & _ & H). destruct (rejected_one rs predefined (H rs (Permutation_refl _))) as (a & r & b & _ & K). exists a, r. split; [exact K|]. unfold put_or_not at 1. rewrite K. reflexivity.
Qed.
