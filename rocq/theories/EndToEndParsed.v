(** What the documents of a search hold: the parse of the data in force with the options in force; and the
    values of their fields do not depend on the order of keys. *)
From Coq Require Import String Ascii.
From Coq Require Import List ZArith NArith Bool Lia.
From Verif Require Import PyVal Diff DiffProofs Time Mongo Store MongoProofs MongoStore Client ClientProofs.
From Verif Require Import Parser ParserProofs ParserTypes ParserEq PropsTotal ParserSim Options.
From Verif Require Import Index IndexSpec Sync SyncSpec SyncTrace SyncReach PropsIndex PropsSync EndToEnd ParserExact Search.
Import ListNotations.
Open Scope string_scope.
Open Scope list_scope.

(** ** The values of a field *)
Lemma leaves_sim a : forall b, vident a b -> Forall2 vident (leaves a) (leaves b).
Proof.
  induction a as [|x0|x0|x0|x0|l IH|d _] using value_ind'; intros b H; pose proof (vident_kind _ _ H) as K; cbn in K; try (subst b; cbn [leaves]; constructor; [exact H|constructor]).
  - destruct K as (m & ->). apply vident_list in H. cbn [leaves]. revert m H. induction IH as [|x l Hx _ IHl]; intros m H; inversion H; subst; cbn [flat_map]; [constructor|]. apply Forall2_app; [apply Hx; assumption|apply IHl; assumption].
  - destruct K as (e & ->). cbn [leaves]. constructor; [exact H|constructor].
Qed.
Lemma scalars_sim l m : Forall2 vident l m -> scalars l = scalars m.
Proof.
  induction 1 as [|a b l m H _ IH]; [reflexivity|]. unfold scalars in *. cbn [filter]. pose proof (vident_kind _ _ H) as K. destruct a; cbn in K; try (subst b; rewrite IH; reflexivity); destruct K as (x & ->); exact IH.
Qed.
Lemma values_sim p : forall a b, vident a b -> values_at p a = values_at p b.
Proof.
  induction p as [|k p IH]; intros a b H; pose proof (leaves_sim a b H) as L; cbn [values_at]; [apply scalars_sim, L|].
  induction L as [|x y l m Hx _ IHl]; [reflexivity|]. cbn [flat_map]. rewrite IHl. f_equal. pose proof (vident_kind _ _ Hx) as K. destruct x as [| | | | |l'|d]; cbn in K; try (subst y; reflexivity); destruct K as (e & ->); [reflexivity|].
  rewrite vident_dict in Hx. specialize (Hx k). destruct (dget d k), (dget e k); cbn [orel] in Hx; try contradiction; [apply IH, Hx|reflexivity].
Qed.

Section Parsed.
Variable L : lib.
Hypothesis KD : keyed L.
Hypothesis VP : value_points L.
Variable S : value -> Prop.
Hypothesis HS : type_exact S.
Notation parse_o := (parse_opt L).

Lemma same_as_parse p q x o rx : record_data S x -> same_result L S p q -> q = parse_o x o \/ popt_eqb q (parse_o x o) = true -> parse L o x = Some rx ->
  exists r, p = Some r /\ pdata_same r rx.
Proof.
  intros Hx Sm H Ex. destruct (result_some L S p q x o rx Sm H Ex) as (r & rq & dq & oq & Ep & Eq & R & Wp & Wq & Gq & Vq). exists r. split; [exact Ep|]. unfold parse_opt in H.
  assert (Q : pdata_same rq rx).
  { rewrite Ex, Eq in H. destruct H as [H|H]; [injection H as ->; repeat split; apply vident_refl|]. exact (parse_exact L VP S HS oq o dq x rq rx Gq Hx Vq Ex H). }
  destruct R as (A1 & A2 & A3), Q as (B1 & B2 & B3). repeat split; [eapply vident_trans; eassumption|congruence|congruence].
Qed.
Context (oeq : options -> options -> bool) (odef : options).
Variable cap : N.
Variable name : pystr.
Notation reaches := (reaches oeq odef parse_o popt_eqb (record_data S) cap name).
Notation sync := (sync parse_o popt_eqb cap).
Notation state calls := (a_run a_empty (proj name calls)).
Theorem search_parsed : forall n t s calls cl e, reaches synced_ok n t s calls cl e -> synced_ok n s (state calls) (get_options cl name) ->
  all_parse parse_o (committed (state calls)) (get_options cl name) ->
  exists e', sync cl name false e = Some e' /\
    forall v hits id x fd o, search_at e' v = Some hits -> in_force (committed (state calls) id) v x -> x <> [] ->
      zmin_key (committed (state calls) id) = Some fd -> options_used (get_options cl name) fd v o ->
      exists h r rx, hits_of id hits = [h] /\ e_parsed h = Some r /\ parse L o x = Some rx /\ pdata_same r rx.
Proof.
  intros n t s calls cl e H Ha AP.
  destruct (C30_search_exact_partial oeq odef eq (record_data S) parse_o popt_eqb (same_result L S) cap name (real_pipeline L KD S HS) n t s calls cl e H Ha) as (e' & E1 & E2 & _).
  exists e'. split; [exact E1|]. intros v hits id x fd o Hs Hx Nx Hfd Hou. destruct (E2 v hits id Hs) as (S1 & _ & S3).
  destruct (S1 (ex_intro _ x (conj Hx Nx))) as (h & Eh). destruct (S3 h x o fd) as (q & Q1 & Q2); [rewrite Eh; left; reflexivity|exact Hx|exact Hfd|exact Hou|].
  assert (Gx : record_data S x) by (destruct Hx as (w & Hw & _); exact (reaches_good L KD S HS oeq odef cap name _ _ _ _ _ _ _ H id w x Hw)).
  destruct (used_parse L _ _ id x v fd o AP Hx Hou) as (rx & Rx). destruct (same_as_parse (e_parsed h) q x o rx Gx Q1 Q2 Rx) as (r & R1 & R3). exists h, r, rx. auto.
Qed.
End Parsed.
