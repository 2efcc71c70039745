(** ParsingOptions (model.py:114-191) and ParsingOptionsBuilder (indexing/options.py). *)
From Coq Require Import String Ascii.
From Coq Require Import List ZArith NArith Bool Lia Permutation.
From Verif Require Import PyVal Time TimeParse Parser.
Import ListNotations.
Open Scope nat_scope.

(** Python sets, as lists without repetitions in some iteration order. [add] keeps the element that is there
    when an equal one is added. *)
Section PySet.
Context {A : Type} (eqb : A -> A -> bool).
(** model.py:156-163 *)
Definition smem (x : A) (s : list A) : bool := existsb (eqb x) s.
(** set.add (indexing/options.py:67, 83, 99, 144, 207-209) *)
Definition sadd (x : A) (s : list A) : list A := if smem x s then s else s ++ [x].
(** set.discard (indexing/options.py:143) *)
Definition sdiscard (x : A) (s : list A) : list A := filter (fun y => negb (eqb x y)) s.
(** set(l), frozenset(l) (indexing/options.py:12-52; model.py:185-188) *)
Definition sfrom (l : list A) : list A := fold_left (fun s x => sadd x s) l [].
(** s == t (model.py:146-163) *)
Definition set_eqb (s t : list A) : bool := Nat.eqb (length s) (length t) && forallb (fun x => smem x t) s.
End PySet.

(** model.py:135-141 [GeoFieldHint.__eq__]: by latitude field *)
Definition hint_eqb (a b : hint) : bool := str_eqb (h_lat a) (h_lat b).
(** The [__eq__] of the dataclass [ParsingOptions]: all fields (model.py:146-170) *)
Definition opts_eqb (a b : options) : bool :=
  set_eqb str_eqb (true_values a) (true_values b) && set_eqb str_eqb (false_values a) (false_values b)
  && set_eqb str_eqb (date_formats a) (date_formats b) && set_eqb hint_eqb (geo_hints a) (geo_hints b)
  && Z.eqb (keyword_length a) (keyword_length b) && str_eqb (float_format a) (float_format b).

(** model.py:177: a radius field or None *)
Definition opt_str (s : option pystr) : value := match s with Some x => VStr x | None => VNone end.
(** model.py:172-180 [to_doc]; tuples become BSON arrays *)
Definition hint_doc (h : hint) : value := VList [VStr (h_lat h); VStr (h_lon h); opt_str (h_radius h); VInt (h_segments h)].
(** model.py:172-180 [to_doc] *)
Definition to_doc (o : options) : dict :=
  [(lit "true_values"%string, VList (map VStr (true_values o)));
   (lit "false_values"%string, VList (map VStr (false_values o)));
   (lit "date_formats"%string, VList (map VStr (date_formats o)));
   (lit "geo_hints"%string, VList (map hint_doc (geo_hints o)));
   (lit "keyword_length"%string, VInt (keyword_length o));
   (lit "float_format"%string, VStr (float_format o))].
(** model.py:182-191 [from_doc]; [None] for documents that are not of that form *)
Definition get_str (v : value) : option pystr := match v with VStr s => Some s | _ => None end.
(** model.py:188: a hint from its parameters *)
Definition get_hint (v : value) : option hint :=
  match v with
  | VList [VStr lat; VStr lon; VNone; VInt n] => Some (Hint lat lon None n)
  | VList [VStr lat; VStr lon; VStr r; VInt n] => Some (Hint lat lon (Some r) n)
  | _ => None
  end.
(** model.py:185-188: [frozenset(...)] of a list *)
Definition get_list {A} (f : value -> option A) (v : option value) : option (list A) :=
  match v with Some (VList l) => map_opt f l | _ => None end.
(** model.py:182-191 [from_doc]; [None]: it raises *)
Definition from_doc (d : dict) : option options :=
  match get_list get_str (dget d (lit "true_values"%string)), get_list get_str (dget d (lit "false_values"%string)),
        get_list get_str (dget d (lit "date_formats"%string)), get_list get_hint (dget d (lit "geo_hints"%string)),
        dget d (lit "keyword_length"%string), dget d (lit "float_format"%string) with
  | Some t, Some f, Some df, Some gh, Some (VInt k), Some (VStr ff) =>
      Some (Opts (sfrom str_eqb t) (sfrom str_eqb f) (sfrom str_eqb df) (sfrom hint_eqb gh) k ff)
  | _, _, _, _, _, _ => None
  end.

(** The builder has the fields of the options it builds (indexing/options.py:38-52 [build] copies them). *)
Inductive bcall :=
| BTrue (v : option pystr) | BFalse (v : option pystr) | BDate (v : option pystr)
| BGeo (lat lon radius : option pystr) (segments : Z)
| BKeyword (n : Z) | BFloat (f : pystr)
| BClearDates | BResetDates | BClearTrue | BClearFalse | BClearGeo.
(** indexing/options.py:200-210; the order of insertion *)
Definition default_dates : list pystr := [DATETIME_STR; DATE_STR; NAIVE_DATETIME_STR].
(** indexing/options.py:12-36 [__init__] *)
Definition b_init (based_on : option options) : options :=
  match based_on with
  | Some o => Opts (sfrom str_eqb (true_values o)) (sfrom str_eqb (false_values o)) (sfrom str_eqb (date_formats o)) (sfrom hint_eqb (geo_hints o)) (keyword_length o) (float_format o)
  | None => Opts [] [] default_dates [] 8191 (lit "{0:.15g}"%string)
  end.
Section Builder.
Variable lower : pystr -> pystr.
(** indexing/options.py:54-68: the attribute changes *)
Definition set_true (b : options) x := Opts x (false_values b) (date_formats b) (geo_hints b) (keyword_length b) (float_format b).
(** indexing/options.py:70-84: the attribute changes *)
Definition set_false (b : options) x := Opts (true_values b) x (date_formats b) (geo_hints b) (keyword_length b) (float_format b).
(** indexing/options.py:86-100: the attribute changes *)
Definition set_dates (b : options) x := Opts (true_values b) (false_values b) x (geo_hints b) (keyword_length b) (float_format b).
(** indexing/options.py:102-145: the attribute changes *)
Definition set_hints (b : options) x := Opts (true_values b) (false_values b) (date_formats b) x (keyword_length b) (float_format b).
(** indexing/options.py:54-237; [None] is ValueError, the builder is then unchanged *)
Definition b_step (b : options) (c : bcall) : option options :=
  match c with
  | BTrue None => Some b
  | BTrue (Some v) => Some (set_true b (sadd str_eqb (lower v) (true_values b)))
  | BFalse None => Some b
  | BFalse (Some v) => Some (set_false b (sadd str_eqb (lower v) (false_values b)))
  | BDate None | BDate (Some []) => Some b
  | BDate (Some f) => Some (set_dates b (sadd str_eqb f (date_formats b)))
  | BGeo (Some (a :: lat)) (Some (c :: lon)) r n =>
      let h := Hint (a :: lat) (c :: lon) r n in Some (set_hints b (sadd hint_eqb h (sdiscard hint_eqb h (geo_hints b))))
  | BGeo _ _ _ _ => Some b
  | BKeyword n => if (n <? 1)%Z then None else if (32766 <? n)%Z then None
                  else Some (Opts (true_values b) (false_values b) (date_formats b) (geo_hints b) n (float_format b))
  | BFloat f => Some (Opts (true_values b) (false_values b) (date_formats b) (geo_hints b) (keyword_length b) f)
  | BClearDates => Some (set_dates b [])
  | BResetDates => Some (set_dates b (sadd str_eqb NAIVE_DATETIME_STR (sadd str_eqb DATE_STR (sadd str_eqb DATETIME_STR []))))
  | BClearTrue => Some (set_true b [])
  | BClearFalse => Some (set_false b [])
  | BClearGeo => Some (set_hints b [])
  end.
(** Any calls, going on after those that raise; the options [build] then gives. (indexing/options.py:38-237) *)
Definition b_next (b : options) (c : bcall) : options := match b_step b c with Some b' => b' | None => b end.
(** indexing/options.py:12-237: a builder and the calls on it *)
Definition b_run (based_on : option options) (cs : list bcall) : options := fold_left b_next cs (b_init based_on).
End Builder.

(** ** Sets *)
(** specification, models no code *)
Definition sets_ok (o : options) : Prop :=
  NoDup (true_values o) /\ NoDup (false_values o) /\ NoDup (date_formats o) /\ NoDup (map h_lat (geo_hints o)).
Lemma smem_str s l : smem str_eqb s l = true <-> In s l.
Proof. unfold smem. rewrite existsb_exists. split; [intros (x & H & E); apply str_eqb_eq in E; congruence|intro H; exists s; split; [exact H|apply str_eqb_refl]]. Qed.
Lemma smem_hint h l : smem hint_eqb h l = true <-> In (h_lat h) (map h_lat l).
Proof. unfold smem, hint_eqb. rewrite existsb_exists, in_map_iff. split; [intros (x & H & E); apply str_eqb_eq in E; exists x; auto|intros (x & E & H); exists x; split; [exact H|apply str_eqb_eq; auto]]. Qed.
Lemma nodup_snoc {A} (l : list A) x : NoDup l -> ~ In x l -> NoDup (l ++ [x]).
Proof. intros H Hx. eapply Permutation_NoDup; [apply Permutation_cons_append|]. constructor; assumption. Qed.
Lemma sadd_str_nodup s l : NoDup l -> NoDup (sadd str_eqb s l).
Proof. intro H. unfold sadd. destruct (smem str_eqb s l) eqn:E; [exact H|]. apply nodup_snoc; [exact H|]. intro K. apply smem_str in K. congruence. Qed.
Lemma sadd_str_In s l x : In x (sadd str_eqb s l) <-> x = s \/ In x l.
Proof.
  unfold sadd. destruct (smem str_eqb s l) eqn:E; [apply smem_str in E; split; [auto|intros [->|H]; assumption]|]. rewrite in_app_iff. cbn. intuition.
Qed.
Lemma sfrom_str_nodup l : NoDup (sfrom str_eqb l).
Proof. unfold sfrom. assert (G : forall acc, NoDup acc -> NoDup (fold_left (fun s x => sadd str_eqb x s) l acc)) by (induction l as [|x l IH]; intros acc H; [exact H|apply IH, sadd_str_nodup, H]). apply G. constructor. Qed.
Lemma sfrom_str_In l x : In x (sfrom str_eqb l) <-> In x l.
Proof. unfold sfrom. assert (G : forall acc, In x (fold_left (fun s x => sadd str_eqb x s) l acc) <-> In x l \/ In x acc) by (induction l as [|y l IH]; intro acc; cbn [fold_left In]; [intuition|rewrite IH, sadd_str_In; intuition]). rewrite G. cbn. intuition. Qed.
Lemma sfrom_id {A} (eqb : A -> A -> bool) l : (forall a x b, l = a ++ x :: b -> smem eqb x a = false) -> sfrom eqb l = l.
Proof.
  intro H. unfold sfrom. assert (G : forall r a, l = a ++ r -> fold_left (fun s x => sadd eqb x s) r a = l).
  { induction r as [|x r IH]; intros a E; cbn [fold_left]; [rewrite app_nil_r in E; congruence|]. unfold sadd. rewrite (H a x r E). apply IH. rewrite <- app_assoc. exact E. }
  apply G. reflexivity.
Qed.
Lemma sfrom_str_id l : NoDup l -> sfrom str_eqb l = l.
Proof. intro H. apply sfrom_id. intros a x b ->. destruct (smem str_eqb x a) eqn:E; [|reflexivity]. apply smem_str in E. apply NoDup_remove_2 in H. exfalso. apply H, in_or_app. left. exact E. Qed.
Lemma sfrom_hint_id l : NoDup (map h_lat l) -> sfrom hint_eqb l = l.
Proof. intro H. apply sfrom_id. intros a x b ->. destruct (smem hint_eqb x a) eqn:E; [|reflexivity]. apply smem_hint in E. rewrite map_app in H. apply NoDup_remove_2 in H. exfalso. apply H, in_or_app. left. exact E. Qed.
Lemma b_init_some o : sets_ok o -> b_init (Some o) = o.
Proof. intros (H1 & H2 & H3 & H4). cbn [b_init]. rewrite !sfrom_str_id by assumption. rewrite sfrom_hint_id by assumption. destruct o; reflexivity. Qed.

Lemma sdiscard_In h l x : In x (sdiscard hint_eqb h l) <-> In x l /\ h_lat x <> h_lat h.
Proof. unfold sdiscard, hint_eqb. rewrite filter_In, negb_true_iff, str_eqb_neq. intuition. Qed.
Lemma replace_hint h l : sadd hint_eqb h (sdiscard hint_eqb h l) = sdiscard hint_eqb h l ++ [h].
Proof. unfold sadd. destruct (smem hint_eqb h (sdiscard hint_eqb h l)) eqn:E; [|reflexivity]. apply smem_hint, in_map_iff in E. destruct E as (x & E & K). apply sdiscard_In in K. destruct K. contradiction. Qed.
Lemma replace_nodup h l : NoDup (map h_lat l) -> NoDup (map h_lat (sadd hint_eqb h (sdiscard hint_eqb h l))).
Proof.
  intro H. rewrite replace_hint, map_app. apply nodup_snoc.
  - unfold sdiscard. clear - H. induction l as [|x l IH]; [constructor|]. cbn [map] in H. inversion H as [|? ? H1 H2]; subst. cbn [filter]. destruct (negb (hint_eqb h x)); [cbn [map]; constructor; [|apply IH, H2]|apply IH, H2]. intro K. apply H1. apply in_map_iff in K. destruct K as (y & <- & K). apply filter_In in K. apply in_map, K.
  - intro K. apply in_map_iff in K. destruct K as (x & E & K). apply sdiscard_In in K. destruct K. contradiction.
Qed.
Lemma b_next_ok lower b c : sets_ok b -> sets_ok (b_next lower b c).
Proof.
  intros (H1 & H2 & H3 & H4). unfold b_next. destruct c as [[v|]|[v|]|[[|a v]|]|[[|a lat]|] [[|c lon]|] r n|n|f| | | | |]; cbn [b_step]; try (repeat split; cbn; auto; fail); try (repeat split; cbn; auto using sadd_str_nodup, NoDup_nil; fail).
  - repeat split; cbn [set_hints true_values false_values date_formats geo_hints]; auto. apply replace_nodup, H4.
  - destruct (n <? 1)%Z; [repeat split; auto|]. destruct (32766 <? n)%Z; repeat split; auto.
  - repeat split; cbn [set_dates true_values false_values date_formats geo_hints]; auto. repeat apply sadd_str_nodup. constructor.
Qed.
Lemma b_run_ok lower o cs : match o with Some b => sets_ok b | None => True end -> sets_ok (b_run lower o cs).
Proof.
  intro H. unfold b_run. assert (G : sets_ok (b_init o)).
  { destruct o as [b|]; [rewrite b_init_some; exact H|]. repeat split; cbn; repeat constructor; cbn; intuition discriminate. }
  revert G. generalize (b_init o). induction cs as [|c cs IH]; intros b G; [exact G|]. cbn [fold_left]. apply IH, b_next_ok, G.
Qed.
Lemma map_opt_map {A B C} (f : B -> option C) (g : A -> B) (h : A -> C) l : (forall x, f (g x) = Some (h x)) -> map_opt f (map g l) = Some (map h l).
Proof. intro H. induction l as [|x l IH]; [reflexivity|]. cbn [map map_opt]. rewrite H, IH. reflexivity. Qed.

(** ** Equality *)
Lemma nodup_incl_perm {A} (s t : list A) : NoDup s -> length s = length t -> incl s t -> Permutation s t.
Proof. intros H E I. apply NoDup_Permutation_bis; [exact H|lia|exact I]. Qed.
Lemma set_eqb_str s t : NoDup s -> set_eqb str_eqb s t = true <-> Permutation s t.
Proof.
  intro H. unfold set_eqb. rewrite andb_true_iff, Nat.eqb_eq, forallb_forall. split.
  - intros [E I]. apply nodup_incl_perm; [exact H|exact E|]. intros x Hx. apply smem_str, I, Hx.
  - intro P. split; [apply Permutation_length, P|]. intros x Hx. apply smem_str. exact (Permutation_in _ P Hx).
Qed.
Lemma set_eqb_hint s t : NoDup (map h_lat s) -> set_eqb hint_eqb s t = true <-> Permutation (map h_lat s) (map h_lat t).
Proof.
  intro H. unfold set_eqb. rewrite andb_true_iff, Nat.eqb_eq, forallb_forall. split.
  - intros [E I]. apply nodup_incl_perm; [exact H|rewrite !map_length; exact E|]. intros x Hx. apply in_map_iff in Hx. destruct Hx as (h & <- & Hx). apply smem_hint, I, Hx.
  - intro P. split; [apply Permutation_length in P; rewrite !map_length in P; exact P|]. intros x Hx. apply smem_hint. apply (Permutation_in _ P), in_map, Hx.
Qed.
