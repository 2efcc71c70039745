(** Property C74: what preparing a record keeps. *)
From Coq Require Import String Ascii.
From Coq Require Import List ZArith NArith Bool Lia.
From Coq Require Import Floats.SpecFloat.
From Verif Require Import PyVal Time Prepare PrepareProofs PropsPrepare.
Import ListNotations.
Open Scope string_scope.
Open Scope list_scope.
Open Scope nat_scope.

(** ** Specification *)
(** [cleaned bad s s']: [s'] is [s] without its bad characters *)
Inductive cleaned (bad : N -> Prop) : pystr -> pystr -> Prop :=
| cl_nil : cleaned bad [] []
| cl_drop c s s' : bad c -> cleaned bad s s' -> cleaned bad (c :: s) s'
| cl_keep c s s' : ~ bad c -> cleaned bad s s' -> cleaned bad (c :: s) (c :: s').
(** control characters other than newline, carriage return and tab *)
Definition value_control (db : chardb) (c : N) : Prop := is_C db c = true /\ c <> 10%N /\ c <> 13%N /\ c <> 9%N.
Definition all_space (db : chardb) (s : pystr) : Prop := forall c, In c s -> is_space db c = true.
(** [trimmed s t]: [t] is [s] without leading and trailing space *)
Definition trimmed (db : chardb) (s t : pystr) : Prop :=
  exists a b, s = a ++ t ++ b /\ all_space db a /\ all_space db b /\
    (forall c r, t = c :: r -> is_space db c = false) /\ (forall c r, t = r ++ [c] -> is_space db c = false).
(** [named k n]: a field called [k] is stored as [n]: control characters are removed, dots become
    underscores, space around it is removed, a leading underscore becomes a dash except in "_id", an empty
    name becomes a dash. *)
Definition named (db : chardb) (k : pykey) (n : pystr) : Prop :=
  exists s1 s2 s3, cleaned (fun c => is_C db c = true) (match k with KS s | KO s => s end) s1 /\
    Forall2 (fun c c' => (c = 46%N -> c' = 95%N) /\ (c <> 46%N -> c' = c)) s1 s2 /\ trimmed db s2 s3 /\
    ((s3 = [] /\ n = lit "-") \/
     (k = KS (lit "_id") /\ n = lit "_id") \/
     (k <> KS (lit "_id") /\ exists r, s3 = 95%N :: r /\ n = 45%N :: r) \/
     (s3 <> [] /\ (forall r, s3 <> 95%N :: r) /\ n = s3)).
(** [becomes v w]: [v] is stored as [w] *)
Inductive becomes (db : chardb) (pad : bool) : pyobj -> value -> Prop :=
| b_none : becomes db pad ONone VNone
| b_bool b : becomes db pad (OBool b) (VBool b)
| b_int z : becomes db pad (OInt z) (VInt z)
| b_float f : becomes db pad (OFloat f) (VFloat f)
| b_str s s' : cleaned (value_control db) s s' -> becomes db pad (OStr s) (VStr s')
| b_seq l l' : Forall2 (becomes db pad) l l' -> becomes db pad (OSeq l) (VList l')
(** every field is there; a stored field has the value of the last field stored under its name *)
| b_dict d d' : NoDup (map fst d') ->
    (forall k v, In (k, v) d -> exists n, named db k n /\ In n (map fst d')) ->
    (forall n w, In (n, w) d' -> exists a k v b, d = a ++ (k, v) :: b /\ named db k n /\ becomes db pad v w /\
       (forall k' v', In (k', v') b -> ~ named db k' n)) ->
    becomes db pad (ODict d) (VDict d')
(** the text of dates; C58 says what it means *)
| b_datetime t : becomes db pad (ODateTime t) (VStr (strftime_dt pad t))
| b_date t : becomes db pad (ODate t) (VStr (strftime_date pad t))
(** [str()] of other objects *)
| b_other s : becomes db pad (OOther s) (VStr s).

(** ** Proofs *)
Lemma cleaned_filter (bad : N -> Prop) (f : N -> bool) s : (forall c, f c = true <-> ~ bad c) -> (forall c, f c = false -> bad c) -> cleaned bad s (filter f s).
Proof.
  intros H1 H2. induction s as [|c s IH]; cbn [filter]; [constructor|]. destruct (f c) eqn:E; [apply cl_keep; [apply H1, E|exact IH]|apply cl_drop; [apply H2, E|exact IH]].
Qed.
Lemma cleaned_fun bad s t : cleaned bad s t -> forall u, cleaned bad s u -> t = u.
Proof.
  induction 1 as [|c s t B _ IH|c s t B _ IH]; intros u H; inversion H as [|c0 s0 u0 B0 H0|c0 s0 u0 B0 H0]; subst; auto; try contradiction. f_equal. auto.
Qed.
Lemma value_control_bad db c : bad_value_char db c = true <-> value_control db c.
Proof.
  unfold bad_value_char, value_control. destruct (is_C db c); cbn [andb]; [|split; [discriminate|intros [Q _]; discriminate]].
  destruct (N.eqb_spec c 10) as [->|H1]; [split; [discriminate|intros (_ & Q & _); congruence]|]. destruct (N.eqb_spec c 13) as [->|H2]; [split; [discriminate|intros (_ & _ & Q & _); congruence]|].
  destruct (N.eqb_spec c 9) as [->|H3]; [split; [discriminate|intros (_ & _ & _ & Q); congruence]|]. cbn. split; auto.
Qed.
Lemma clean_value_cleaned db s : cleaned (value_control db) s (clean_value db s).
Proof.
  apply cleaned_filter.
  - intro c. rewrite negb_true_iff. rewrite <- value_control_bad. destruct (bad_value_char db c); split; congruence.
  - intros c H. apply value_control_bad. apply negb_false_iff in H. exact H.
Qed.
Lemma lstrip_space db s : exists a, s = a ++ lstrip db s /\ all_space db a.
Proof.
  induction s as [|c s (a & E & H)]; cbn [lstrip]; [exists []; split; [reflexivity|intros c []]|]. destruct (is_space db c) eqn:Ec; [exists (c :: a)|exists []; split; [reflexivity|intros x []]].
  split; [cbn; congruence|]. intros x [<-|Hx]; [exact Ec|exact (H x Hx)].
Qed.
Lemma strip_trimmed db s : trimmed db s (strip db s).
Proof.
  destruct (lstrip_space db s) as (a & Ea & Ha). destruct (lstrip_space db (rev (lstrip db s))) as (b & Eb & Hb).
  exists a, (rev b). split; [|split; [exact Ha|split]].
  - unfold strip. rewrite Ea at 1. f_equal. rewrite <- rev_app_distr, <- Eb, rev_involutive. reflexivity.
  - intros c H. apply Hb. apply in_rev. exact H.
  - split; [apply strip_head|apply strip_last].
Qed.
Lemma trimmed_fun db s t u : trimmed db s t -> trimmed db s u -> t = u.
Proof.
  intros (a & b & E & Ha & Hb & Th & Tl) (a' & b' & E' & Ha' & Hb' & Uh & Ul). 
  assert (A : forall (t u b b' a a' : pystr), all_space db a -> all_space db a' -> all_space db b -> all_space db b' -> a ++ t ++ b = a' ++ u ++ b' ->
    (forall c r, t = c :: r -> is_space db c = false) -> (forall c r, u = c :: r -> is_space db c = false) -> t ++ b = u ++ b' \/ (t = [] /\ u = [])).
  { clear. intros t u b b' a. induction a as [|c a IH]; intros a' Ha Ha' Hb Hb' E Ht Hu.
    - destruct a' as [|c' a']; [left; exact E|]. destruct t as [|x t]; [|cbn in E; injection E as -> _; specialize (Ht c' t eq_refl); specialize (Ha' c' (or_introl eq_refl)); congruence].
      right. split; [reflexivity|]. destruct u as [|x u]; [reflexivity|]. cbn [app] in E. assert (K : In x b) by (rewrite E; right; apply in_or_app; right; left; reflexivity). specialize (Hb x K). specialize (Hu x u eq_refl). congruence.
    - destruct a' as [|c' a'].
      + destruct u as [|x u]; [|cbn in E; injection E as -> _; specialize (Hu x u eq_refl); specialize (Ha x (or_introl eq_refl)); congruence].
        right. split; [|reflexivity]. destruct t as [|x t]; [reflexivity|]. cbn [app] in E. assert (K : In x b') by (rewrite <- E; right; apply in_or_app; right; left; reflexivity). specialize (Hb' x K). specialize (Ht x t eq_refl). congruence.
      + cbn in E. injection E as <- E. apply (IH a'); auto; intros x Hx; [apply Ha|apply Ha']; right; exact Hx. }
  destruct (A t u b b' a a' Ha Ha' Hb Hb' (eq_trans (eq_sym E) E') Th Uh) as [F|[-> ->]]; [|reflexivity].
  apply (f_equal (@rev N)) in F. rewrite !rev_app_distr in F.
  assert (R : forall s, all_space db s -> all_space db (rev s)) by (intros s0 H c Hc; apply H, in_rev, Hc).
  assert (Rl : forall s, (forall c r, s = r ++ [c] -> is_space db c = false) -> forall c r, rev s = c :: r -> is_space db c = false).
  { intros s0 H c r Q. apply (H c (rev r)). rewrite <- (rev_involutive s0), Q. reflexivity. }
  destruct (A (rev t) (rev u) [] [] (rev b) (rev b') (R _ Hb) (R _ Hb') ltac:(intros x []) ltac:(intros x []) ltac:(rewrite !app_nil_r; exact F) (Rl t Tl) (Rl u Ul)) as [G|[G1 G2]].
  - rewrite !app_nil_r in G. rewrite <- (rev_involutive t), G, rev_involutive. reflexivity.
  - rewrite <- (rev_involutive t), <- (rev_involutive u), G1, G2. reflexivity.
Qed.
Lemma dots_fun (s t u : pystr) : Forall2 (fun c c' => (c = 46%N -> c' = 95%N) /\ (c <> 46%N -> c' = c)) s t -> Forall2 (fun c c' => (c = 46%N -> c' = 95%N) /\ (c <> 46%N -> c' = c)) s u -> t = u.
Proof.
  intro H. revert u. induction H as [|c c' s t [A B] _ IH]; intros u K; inversion K as [|c0 c1 s0 u0 [A' B'] K']; subst; [reflexivity|]. f_equal; [|apply IH; exact K'].
  destruct (N.eq_dec c 46) as [E|E]; [rewrite A, A'; auto|rewrite B, B'; auto].
Qed.
Lemma clean_name_steps db s : exists s1 s2, cleaned (fun c => is_C db c = true) s s1 /\
  Forall2 (fun c c' => (c = 46%N -> c' = 95%N) /\ (c <> 46%N -> c' = c)) s1 s2 /\ trimmed db s2 (clean_name db s).
Proof.
  exists (filter (fun c => negb (is_C db c)) s). eexists. split; [|split; [|apply strip_trimmed]].
  - apply cleaned_filter; intro c; destruct (is_C db c); cbn; [split; [discriminate|intro Q; exfalso; apply Q; reflexivity]|split; [intros _ Q; discriminate|reflexivity]|reflexivity|discriminate].
  - induction (filter _ s) as [|c r IH]; cbn [map]; constructor; [|exact IH]. destruct (N.eqb_spec c 46) as [->|N0]; split; congruence.
Qed.
Lemma id_name db : db_ok db -> clean_name db DATA_ID = DATA_ID.
Proof.
  intro H. pose proof (prepare_field_name_id db DATA_ID) as P. apply clean_name_id. 
  split; [discriminate|]. split; [intros c Hc; apply (db_char db H); cbn in *; intuition|]. split; [cbn; intuition discriminate|]. split; [intros c r0 E; injection E as <- _; apply (db_char db H); cbn; auto|]. split; [|reflexivity].
  intros c r0 E. assert (Ec : c = last (r0 ++ [c]) 0%N) by (rewrite last_last; reflexivity). rewrite <- E in Ec. cbn in Ec. subst c. apply (db_char db H). cbn. intuition.
Qed.
(** the name a field gets is the only one it can get *)
Lemma named_iff db k n : db_ok db -> (named db k n <-> n = prepare_field_name db k).
Proof.
  intro Hdb. assert (Kid : key_is_id k = true <-> k = KS (lit "_id")).
  { destruct k as [s|s]; cbn; [rewrite str_eqb_eq; split; [intros ->; reflexivity|intro Q; injection Q as ->; reflexivity]|split; discriminate]. }
  split.
  - intros (s1 & s2 & s3 & H1 & H2 & H3 & H). destruct (clean_name_steps db (key_str k)) as (t1 & t2 & K1 & K2 & K3).
    change (match k with KS s | KO s => s end) with (key_str k) in H1. rewrite (cleaned_fun _ _ _ H1 _ K1) in H2. rewrite (dots_fun _ _ _ H2 K2) in H3. pose proof (trimmed_fun db _ _ _ H3 K3) as E. assert (Kid2 : k <> KS (lit "_id") -> key_is_id k = false) by (destruct (key_is_id k); [intro Q; exfalso; apply Q, Kid; reflexivity|reflexivity]). clear - E H Kid Kid2 Hdb. unfold prepare_field_name. rewrite <- E.
    destruct H as [[-> ->]|[[-> ->]|[(N0 & r & -> & ->)|(N1 & N2 & ->)]]].
    + reflexivity.
    + cbn [key_str] in E. change (lit "_id") with DATA_ID in E. rewrite id_name in E by exact Hdb. subst s3. reflexivity.
    + rewrite (Kid2 N0). reflexivity.
    + destruct s3 as [|c r]; [contradiction|]. destruct (key_is_id k) eqn:Ek; [pose proof (proj1 Kid eq_refl) as Q; subst k; cbn [key_str] in E; change (lit "_id") with DATA_ID in E; rewrite id_name in E by exact Hdb; rewrite E; reflexivity|].
      destruct (N.eqb_spec c 95) as [->|N0]; [exfalso; exact (N2 r eq_refl)|reflexivity].
  - intros ->. destruct (clean_name_steps db (key_str k)) as (t1 & t2 & K1 & K2 & K3). exists t1, t2, (clean_name db (key_str k)). split; [exact K1|]. split; [exact K2|]. split; [exact K3|].
    unfold prepare_field_name. destruct (clean_name db (key_str k)) as [|c r]; [left; split; reflexivity|right]. destruct (key_is_id k) eqn:Ek; [left; split; [exact (proj1 Kid eq_refl)|reflexivity]|right].
    destruct (N.eqb_spec c 95) as [->|N0]; [left; split; [intro Q; apply (proj2 Kid) in Q; discriminate|exists r; split; reflexivity]|right; split; [discriminate|split; [intros r0 Q; congruence|reflexivity]]].
Qed.
Lemma dupdate_last {A} (l : list (pystr * A)) : forall d n w, In (n, w) (dupdate d l) -> NoDup (dkeys d) ->
  (exists a b, l = a ++ (n, w) :: b /\ ~ In n (map fst b)) \/ (In (n, w) d /\ ~ In n (map fst l)).
Proof.
  induction l as [|[k v] l IH]; intros d n w H Hd; [right; split; [exact H|intros []]|]. rewrite dupdate_cons in H. destruct (IH _ _ _ H (NoDup_dset _ _ _ Hd)) as [(a & b & -> & Hb)|[H1 H2]].
  - left. exists ((k, v) :: a), b. split; [reflexivity|exact Hb].
  - apply In_dget in H1; [|apply NoDup_dset, Hd]. rewrite dget_dset in H1. destruct (str_eqb n k) eqn:E; [apply str_eqb_eq in E; subst k|assert (Nk : k <> n) by (intro Q; subst k; rewrite str_eqb_refl in E; discriminate)].
    + injection H1 as ->. left. exists [], l. split; [reflexivity|exact H2].
    + right. split; [apply dget_In, H1|]. cbn. intros [Q|Q]; [exact (Nk Q)|exact (H2 Q)].
Qed.
Lemma content db pad v : db_ok db -> becomes db pad v (prepare_data db pad v).
Proof.
  intro Hdb. induction v as [|s|b|z|f|d IH|l IH|t|t|s] using pyobj_ind'; cbn [prepare_data]; try constructor.
  - apply clean_value_cleaned.
  - apply NoDup_dict_of.
  - intros k v H. exists (prepare_field_name db k). split; [apply named_iff; [exact Hdb|reflexivity]|]. apply In_dkeys_dupdate. right. unfold dkeys. rewrite map_map. apply in_map_iff. exists (k, v). split; [reflexivity|exact H].
  - intros n w H. apply dupdate_last in H; [|constructor]. destruct H as [(a & b & E & Hb)|[[] _]]. rewrite Forall_forall in IH.
    apply map_eq_app in E. destruct E as (d1 & d2 & -> & <- & E). destruct d2 as [|[k v] d2]; [discriminate|]. cbn [map fst snd] in E. injection E as <- <- <-.
    exists d1, k, v, d2. split; [reflexivity|]. split; [apply named_iff; [exact Hdb|reflexivity]|]. split; [apply (IH (k, v)); apply in_or_app; right; left; reflexivity|].
    intros k' v' H' Q. apply named_iff in Q; [|exact Hdb]. apply Hb. rewrite map_map. apply in_map_iff. exists (k', v'). split; [symmetry; exact Q|exact H'].
  - induction l as [|x l IHl]; cbn [map]; constructor; inversion IH; auto.
Qed.

(** ** C74 *)
(** Values that are storable, and names that are clean, are stored as they are. *)
Theorem C74_storable_unchanged : forall db pad v, storable db v -> prepare_data db pad (as_obj v) = v.
Proof. intros db pad v H. exact (prepare_storable_id db pad v H). Qed.
Print Assumptions C74_storable_unchanged.
Theorem C74_names : forall db k n, db_ok db -> (named db k n <-> n = prepare_field_name db k).
Proof. exact named_iff. Qed.
Print Assumptions C74_names.
(** Everything else is stored as [becomes] says, ... *)
Theorem C74_content : forall db pad v, db_ok db -> becomes db pad v (prepare_data db pad v).
Proof. exact content. Qed.
Print Assumptions C74_content.
(** ... and a record is stored as its prepared data, with its id under "_id". *)
Theorem C74_record : forall db pad r, db_ok db -> r_data r <> [] -> exists d i,
  becomes db pad (ODict (r_data r)) (VDict d) /\ cleaned (value_control db) (r_id r) i /\
  forall k, dget (prepare_record_data db pad r) k = if str_eqb k (lit "_id") then Some (VStr i) else dget d k.
Proof.
  intros db pad r Hdb H. pose proof (content db pad (ODict (r_data r)) Hdb) as C. cbn [prepare_data] in C. eexists. exists (clean_value db (r_id r)). split; [exact C|]. split; [apply clean_value_cleaned|].
  intro k. unfold prepare_record_data, is_delete. destruct (r_data r) as [|kv d] eqn:E; [contradiction|]. cbn [prepare_data]. rewrite dget_dset. reflexivity.
Qed.
Print Assumptions C74_record.
Example C74_example : db_ok ascii_db /\ storable ascii_db (prepare_data ascii_db false ex_obj) /\
  named ascii_db (KS (lit " _a.b ")) (lit "-a_b") /\ r_data (Rec (lit "r") [(KS (lit "_id"), OInt 9)]) <> [].
Proof.
  split; [exact ascii_db_ok|]. split; [apply C05_prepare_normalises_partial; [exact ascii_db_ok|apply C05_example]|]. split; [apply C74_names; [exact ascii_db_ok|reflexivity]|discriminate].
Qed.

(** ** C05 and C07, exactly *)
(** [shown s v]: the fallback text [s] of some object is part of what [v] is stored as: no later field of its
    dict, or of a dict around it, is stored under the same name. *)
Inductive shown (db : chardb) (s : pystr) : pyobj -> Prop :=
| sh_other : shown db s (OOther s)
| sh_seq x l : In x l -> shown db s x -> shown db s (OSeq l)
| sh_dict a k v b n : named db k n -> (forall k' v', In (k', v') b -> ~ named db k' n) -> shown db s v ->
    shown db s (ODict (a ++ (k, v) :: b)).

Lemma dupdate_last_in {A} (l : list (pystr * A)) : forall d n w a b, l = a ++ (n, w) :: b -> ~ In n (map fst b) ->
  dget (dupdate d l) n = Some w.
Proof.
  intros d n w a b -> Hb. unfold dupdate. rewrite fold_left_app. cbn [fold_left].
  change (dget (dupdate (dset (dupdate d a) n w) b) n = Some w).
  assert (G : forall e : list (pystr * A), dget e n = Some w -> dget (dupdate e b) n = Some w).
  { clear - Hb. induction b as [|[k v] b IH]; intros e He; [exact He|]. rewrite dupdate_cons. apply IH; [intro Q; apply Hb; right; exact Q|].
    rewrite dget_dset. destruct (str_eqb n k) eqn:E; [|exact He]. apply str_eqb_eq in E. destruct Hb. left. symmetry. exact E. }
  apply G. rewrite dget_dset, str_eqb_refl. reflexivity.
Qed.

Lemma shown_storable db pad s v : db_ok db -> shown db s v -> storable db (prepare_data db pad v) -> clean_text db s.
Proof.
  intros Hdb H. induction H as [|x l Hx _ IH|a k v b n Hn Hb _ IH]; cbn [prepare_data]; intro S.
  - exact S.
  - apply storable_list in S. rewrite Forall_forall in S. apply IH, S, in_map, Hx.
  - apply storable_dict in S. destruct S as [_ S]. rewrite Forall_forall in S. apply IH. apply named_iff in Hn; [|exact Hdb]. subst n.
    refine (proj2 (S (prepare_field_name db k, prepare_data db pad v) _)). apply dget_In. unfold dict_of.
    refine (dupdate_last_in _ [] _ _ (map (fun kv => (prepare_field_name db (fst kv), prepare_data db pad (snd kv))) a) (map (fun kv => (prepare_field_name db (fst kv), prepare_data db pad (snd kv))) b) _ _).
    + rewrite map_app. reflexivity.
    + rewrite map_map. cbn [fst]. intro Q. apply in_map_iff in Q. destruct Q as ([k' v'] & Q & Hi). apply (Hb k' v' Hi). apply named_iff; [exact Hdb|]. symmetry. exact Q.
Qed.
Lemma storable_shown db pad v : db_ok db -> (forall s, shown db s v -> clean_text db s) -> storable db (prepare_data db pad v).
Proof.
  intro Hdb. induction v as [|s|b|z|f|d IH|l IH|t|t|s] using pyobj_ind'; intro H; try (apply prepare_storable; [exact Hdb|exact I]).
  - cbn [prepare_data]. apply storable_dict. split; [apply NoDup_dict_of|]. apply Forall_forall. intros [n w] Hi. cbn [fst snd].
    apply dupdate_last in Hi; [|constructor]. destruct Hi as [(a & b & E & Hb)|[[] _]].
    apply map_eq_app in E. destruct E as (d1 & d2 & -> & <- & E). destruct d2 as [|[k v] d2]; [discriminate|]. cbn [map fst snd] in E. injection E as <- <- <-.
    split; [apply clean_field_name_ok, Hdb|]. rewrite Forall_forall in IH. apply (IH (k, v)); [apply in_or_app; right; left; reflexivity|]. cbn [snd]. intros s Hs. apply H. apply (sh_dict db s d1 k v d2 (prepare_field_name db k)); [apply named_iff; [exact Hdb|reflexivity]| |exact Hs].
    intros k' v' Hi Q. apply named_iff in Q; [|exact Hdb]. apply Hb. rewrite map_map. apply in_map_iff. exists (k', v'). split; [symmetry; exact Q|exact Hi].
  - cbn [prepare_data]. apply storable_list. apply Forall_forall. intros w Hw. apply in_map_iff in Hw. destruct Hw as (x & <- & Hx). rewrite Forall_forall in IH. apply (IH x Hx). intros s Hs. apply H. exact (sh_seq db s x l Hx Hs).
  - cbn. apply H. constructor.
Qed.
Lemma as_obj_clean db v : others_print_clean db (as_obj v).
Proof.
  induction v as [|b|z|f|s|l IH|d IH] using value_ind'; try exact I.
  - cbn [as_obj]. apply opc_seq. rewrite Forall_map. exact IH.
  - cbn [as_obj]. apply opc_dict. rewrite Forall_map. exact IH.
Qed.

(** Preparing gives storable data exactly when every fallback text that is kept is clean, and that is exactly
    when preparing again changes nothing. *)
Theorem C05_exact : forall db pad v, db_ok db ->
  (storable db (prepare_data db pad v) <-> forall s, shown db s v -> clean_text db s) /\
  (prepare_data db pad (as_obj (prepare_data db pad v)) = prepare_data db pad v <-> forall s, shown db s v -> clean_text db s).
Proof.
  intros db pad v Hdb. assert (A : storable db (prepare_data db pad v) <-> forall s, shown db s v -> clean_text db s).
  { split; [intros S s Hs; exact (shown_storable db pad s v Hdb Hs S)|apply storable_shown, Hdb]. }
  split; [exact A|]. rewrite <- A. split.
  - intro E. rewrite <- E. apply prepare_storable; [exact Hdb|apply as_obj_clean].
  - apply prepare_storable_id.
Qed.
Print Assumptions C05_exact.
(** The text of the first field is replaced by the second, so it does no harm; alone it does. *)
Example C05_exact_example : let v := ODict [(KS (lit "a.b"), OOther [0%N]); (KS (lit "a_b"), OOther (lit "x"))] in
  prepare_data ascii_db false v = VDict [(lit "a_b", VStr (lit "x"))] /\
  shown ascii_db [0%N] (ODict [(KS (lit "a.b"), OOther [0%N])]) /\ shown ascii_db (lit "x") v.
Proof.
  split; [reflexivity|]. split.
  - apply (sh_dict ascii_db [0%N] [] _ _ [] (lit "a_b")); [apply named_iff; [exact ascii_db_ok|reflexivity]|intros k' v' []|constructor].
  - apply (sh_dict ascii_db (lit "x") [(KS (lit "a.b"), OOther [0%N])] _ _ [] (lit "a_b")); [apply named_iff; [exact ascii_db_ok|reflexivity]|intros k' v' []|constructor].
Qed.

(** A dict is stored with one field per name its fields get; a name used once holds the value of its field, a
    name used more than once that of the last. So a field is lost exactly when two fields get one name. *)
Theorem C07_exact : forall db pad d, db_ok db ->
  exists out, prepare_data db pad (ODict d) = VDict out /\
    (forall n w, dget out n = Some w <-> exists a k v b, d = a ++ (k, v) :: b /\ named db k n /\
       w = prepare_data db pad v /\ (forall k' v', In (k', v') b -> ~ named db k' n)) /\
    Datatypes.length out <= Datatypes.length d /\
    (Datatypes.length out = Datatypes.length d <->
     forall i j k v k' v' n, nth_error d i = Some (k, v) -> nth_error d j = Some (k', v') -> named db k n -> named db k' n -> i = j).
Proof.
  intros db pad d Hdb. set (f := fun kv : pykey * pyobj => (prepare_field_name db (fst kv), prepare_data db pad (snd kv))).
  set (g := fun kv : pykey * pyobj => prepare_field_name db (fst kv)).
  exists (dict_of (map f d)). split; [reflexivity|]. 
  assert (Nd : NoDup (dkeys (dict_of (map f d)))) by apply NoDup_dict_of.
  assert (In1 : incl (dkeys (dict_of (map f d))) (map g d)).
  { intros n Hn. apply In_dkeys_dupdate in Hn. destruct Hn as [[]|Hn]. unfold dkeys in Hn. rewrite map_map in Hn. exact Hn. }
  assert (In2 : incl (map g d) (dkeys (dict_of (map f d)))).
  { intros n Hn. apply In_dkeys_dupdate. right. unfold dkeys. rewrite map_map. exact Hn. }
  assert (L : Datatypes.length (dkeys (dict_of (map f d))) = Datatypes.length (dict_of (map f d))) by (unfold dkeys; apply map_length).
  split; [|split].
  - intros n w. split.
    + intro H. apply dget_In in H. apply dupdate_last in H; [|constructor]. destruct H as [(a & b & E & Hb)|[[] _]].
      apply map_eq_app in E. destruct E as (d1 & d2 & -> & <- & E). destruct d2 as [|[k v] d2]; [discriminate|]. unfold f in E. cbn [map fst snd] in E. injection E as <- <- <-.
      exists d1, k, v, d2. split; [reflexivity|]. split; [apply named_iff; [exact Hdb|reflexivity]|]. split; [reflexivity|].
      intros k' v' Hi Q. apply named_iff in Q; [|exact Hdb]. apply Hb. unfold f. rewrite map_map. apply in_map_iff. exists (k', v'). split; [symmetry; exact Q|exact Hi].
    + intros (a & k & v & b & -> & Hn & -> & Hb). apply named_iff in Hn; [|exact Hdb]. subst n. unfold dict_of. apply (dupdate_last_in _ [] _ _ (map f a) (map f b)).
      * rewrite map_app. reflexivity.
      * unfold f. rewrite map_map. cbn [fst]. intro Q. apply in_map_iff in Q. destruct Q as ([k' v'] & Q & Hi). apply (Hb k' v' Hi). apply named_iff; [exact Hdb|]. symmetry. exact Q.
  - rewrite <- L, <- (map_length g d). exact (NoDup_incl_length Nd In1).
  - rewrite <- L. assert (X : NoDup (map g d) <-> forall i j k v k' v' n, nth_error d i = Some (k, v) -> nth_error d j = Some (k', v') -> named db k n -> named db k' n -> i = j).
    { rewrite NoDup_nth_error. split.
      - intros H i j k v k' v' n Hi Hj Nk Nk'. apply named_iff in Nk; [|exact Hdb]. apply named_iff in Nk'; [|exact Hdb]. apply H.
        + rewrite map_length. apply nth_error_Some. congruence.
        + rewrite !nth_error_map, Hi, Hj. cbn. unfold g. cbn [fst]. congruence.
      - intros H i j Hi E. rewrite map_length in Hi. rewrite !nth_error_map in E. apply nth_error_Some in Hi. destruct (nth_error d i) as [[k v]|] eqn:Ei; [|congruence].
        destruct (nth_error d j) as [[k' v']|] eqn:Ej; [|discriminate E]. cbn in E. injection E as E. apply (H i j k v k' v' (prepare_field_name db k) Ei Ej); (apply named_iff; [exact Hdb|]); [reflexivity|exact E]. }
    rewrite <- X. split.
    + intro E. apply (NoDup_incl_NoDup Nd); [|exact In1]. rewrite map_length, <- E. apply le_n.
    + intro N. rewrite <- (map_length g d). apply Nat.le_antisymm; [exact (NoDup_incl_length Nd In1)|exact (NoDup_incl_length N In2)].
Qed.
Print Assumptions C07_exact.
Example C07_exact_example : prepare_data ascii_db false (ODict [(KS (lit "a.b"), OInt 1); (KS (lit "c"), ONone); (KS (lit "a_b"), OInt 2)])
  = VDict [(lit "a_b", VInt 2); (lit "c", VNone)].
Proof. reflexivity. Qed.
