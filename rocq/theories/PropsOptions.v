(** C40, C41, C63: parsing options and their builder. *)
From Coq Require Import String Ascii.
From Coq Require Import List ZArith NArith Bool Lia Permutation.
From Verif Require Import PyVal Time TimeParse Diff Prepare Mongo Parser Client ClientProofs SyncArcs Cache Options.
From Verif Require PropsDates.
Import ListNotations.
Open Scope string_scope.
Open Scope list_scope.
Open Scope nat_scope.

(** ** C40: documents and back *)
Theorem C40_roundtrip : forall o, sets_ok o -> from_doc (to_doc o) = Some o.
Proof.
  intros o (H1 & H2 & H3 & H4). unfold from_doc, to_doc. cbn [dget str_eqb lit list_ascii_of_string]. 
  change (match get_list get_str (Some (VList (map VStr (true_values o)))), get_list get_str (Some (VList (map VStr (false_values o)))),
    get_list get_str (Some (VList (map VStr (date_formats o)))), get_list get_hint (Some (VList (map hint_doc (geo_hints o)))) with
    | Some t, Some f, Some df, Some gh => Some (Opts (sfrom str_eqb t) (sfrom str_eqb f) (sfrom str_eqb df) (sfrom hint_eqb gh) (keyword_length o) (float_format o))
    | _, _, _, _ => None end = Some o).
  cbn [get_list]. rewrite !(map_opt_map get_str VStr (fun s => s)) by reflexivity. rewrite (map_opt_map get_hint hint_doc (fun h => h)) by (intros [lat lon [r|] n]; reflexivity).
  rewrite !map_id, !sfrom_str_id, sfrom_hint_id by assumption. destruct o; reflexivity.
Qed.
Print Assumptions C40_roundtrip.

(** *** What calls of the builder amount to *)
(** [BGeo] with both names given *)
Definition hint_given (c : bcall) (h : hint) : Prop := c = BGeo (Some (h_lat h)) (Some (h_lon h)) (h_radius h) (h_segments h) /\ h_lat h <> [] /\ h_lon h <> [].
(** the calls after which a hint is no longer there: another hint for the latitude field, or a clear *)
Definition hint_dropped (c : bcall) (h : hint) : Prop := c = BClearGeo \/ exists h', hint_given c h' /\ h_lat h' = h_lat h.
(** [x] was added by a call and not dropped since, or was there at the start and never dropped *)
Definition there {X} (added dropped : bcall -> X -> Prop) (base : list X) (cs : list bcall) (x : X) : Prop :=
  (exists before c after, cs = before ++ c :: after /\ added c x /\ forall c', In c' after -> ~ dropped c' x)
  \/ (In x base /\ forall c', In c' cs -> ~ dropped c' x).
Definition base_of (based_on : option options) : options := match based_on with Some o => o | None => Opts [] [] [DATETIME_STR; DATE_STR; NAIVE_DATETIME_STR] [] 8191 (lit "{0:.15g}") end.
(** the last call of a kind, or the initial value *)
Fixpoint last_given {X} (f : bcall -> option X) (cs : list bcall) (x : X) : X :=
  match cs with [] => x | c :: r => last_given f r (match f c with Some y => y | None => x end) end.

Section There.
Context {X : Type} (lower : pystr -> pystr) (proj : options -> list X) (added dropped : bcall -> X -> Prop).
Hypothesis step : forall b c x, In x (proj (b_next lower b c)) <-> added c x \/ (In x (proj b) /\ ~ dropped c x).
Lemma there_run b cs x : In x (proj (fold_left (b_next lower) cs b)) <-> there added dropped (proj b) cs x.
Proof.
  revert x. induction cs as [|c cs IH] using rev_ind; intro x.
  - cbn [fold_left]. unfold there. split; [intro H; right; split; [exact H|intros c []]|]. intros [(l & c & r & E & _)|[H _]]; [destruct l; discriminate|exact H].
  - rewrite fold_left_app. cbn [fold_left]. rewrite step, IH. unfold there. split.
    + intros [H|[[(l & c0 & r & -> & H1 & H2)|[H1 H2]] H3]].
      * left. exists cs, c, []. split; [reflexivity|]. split; [exact H|intros c' []].
      * left. exists l, c0, (r ++ [c]). rewrite <- app_assoc. split; [reflexivity|]. split; [exact H1|]. intros c' Hc. apply in_app_or in Hc. destruct Hc as [Hc|[<-|[]]]; [exact (H2 c' Hc)|exact H3].
      * right. split; [exact H1|]. intros c' Hc. apply in_app_or in Hc. destruct Hc as [Hc|[<-|[]]]; [exact (H2 c' Hc)|exact H3].
    + intros [(l & c0 & r & E & H1 & H2)|[H1 H2]].
      * destruct r as [|c1 r _] using rev_ind; [apply app_inj_tail in E; destruct E as [-> ->]; left; exact H1|].
        right. rewrite app_comm_cons, app_assoc in E. apply app_inj_tail in E. destruct E as [-> ->]. split; [|apply H2, in_or_app; right; left; reflexivity].
        left. exists l, c0, r. split; [reflexivity|]. split; [exact H1|]. intros c' Hc. apply H2, in_or_app. left. exact Hc.
      * right. split; [right; split; [exact H1|]; intros c' Hc; apply H2, in_or_app; left; exact Hc|]. apply H2, in_or_app. right. left. reflexivity.
Qed.
End There.

Lemma init_geo o : match o with Some b => sets_ok b | None => True end -> b_init o = base_of o.
Proof. destruct o as [o|]; [apply b_init_some|reflexivity]. Qed.
Lemma step_hints lower b c h : In h (geo_hints (b_next lower b c)) <-> hint_given c h \/ (In h (geo_hints b) /\ ~ hint_dropped c h).
Proof.
  assert (G : forall P : Prop, P -> (~ hint_given c h) -> (~ hint_dropped c h) -> (P <-> hint_given c h \/ (P /\ ~ hint_dropped c h))) by tauto.
  unfold b_next. destruct c as [[v|]|[v|]|[[|a v]|]|[[|a lat]|] [[|e lon]|] r n|n|f| | | | |]; cbn [b_step geo_hints set_true set_false set_dates set_hints];
    try (split; [intro H; right; split; [exact H|intros [D|(h' & (D & N1 & N2) & _)]; try discriminate D; congruence]|intros [(D & N1 & N2)|[H _]]; [try discriminate D; congruence|exact H]]; fail).
  - rewrite replace_hint, in_app_iff, sdiscard_In. cbn [In h_lat]. split.
    + intros [[H N]|[<-|[]]]; [right; split; [exact H|]|left; repeat split; discriminate].
      intros [D|(h' & (D & _) & E)]; [discriminate|]. injection D as E1 _ _ _. congruence.
    + intros [(D & _)|[H N]]; [right; left; injection D as -> -> -> ->; destruct h; reflexivity|]. left. split; [exact H|]. intro E. apply N. right. exists (Hint (a :: lat) (e :: lon) r n). split; [repeat split; discriminate|symmetry; exact E].
  - destruct (n <? 1)%Z; [|destruct (32766 <? n)%Z]; cbn [geo_hints]; (split; [intro H; right; split; [exact H|intros [D|(h' & (D & _) & _)]; discriminate D]|intros [(D & _)|[H _]]; [discriminate D|exact H]]).
  - split; [intros []|]. intros [(D & _)|[_ H]]; [discriminate|]. apply H. left. reflexivity.
Qed.

(** The hints of any options built are the ones given last for their latitude field. *)
Theorem C40_hints : forall lower based_on cs, match based_on with Some b => sets_ok b | None => True end ->
  let o := b_run lower based_on cs in
  (forall h, In h (geo_hints o) <-> there hint_given hint_dropped (geo_hints (base_of based_on)) cs h)
  /\ (forall h h', In h (geo_hints o) -> In h' (geo_hints o) -> h_lat h = h_lat h' -> h = h')
  /\ NoDup (geo_hints o).
Proof.
  intros lower b cs Hb o. assert (K : NoDup (map h_lat (geo_hints o))) by apply (b_run_ok lower b cs Hb). split; [|split].
  - intro h. unfold o, b_run. rewrite (there_run lower geo_hints hint_given hint_dropped (step_hints lower)), (init_geo b Hb). reflexivity.
  - clear - K. induction (geo_hints o) as [|x l IH]; [intros h h' []|]. cbn [map] in K. inversion K as [|? ? K1 K2]; subst. intros h h' [->|H] [->|H'] E; [reflexivity| | |apply IH; assumption].
    + exfalso. apply K1. rewrite E. apply in_map, H'.
    + exfalso. apply K1. rewrite <- E. apply in_map, H.
  - apply NoDup_map_inv in K. exact K.
Qed.
Print Assumptions C40_hints.
(** Keyword lengths out of range raise, and all options built have one in range. *)
Theorem C40_keyword : forall lower based_on cs, match based_on with Some b => (1 <= keyword_length b <= 32766)%Z | None => True end ->
  let o := b_run lower based_on cs in
  (1 <= keyword_length o <= 32766)%Z
  /\ keyword_length o = last_given (fun c => match c with BKeyword n => if ((1 <=? n) && (n <=? 32766))%Z then Some n else None | _ => None end) cs (keyword_length (base_of based_on))
  /\ (forall n, b_step lower o (BKeyword n) = None <-> (n < 1 \/ 32766 < n)%Z).
Proof.
  intros lower based_on cs Hb o. split; [|split].
  - unfold o, b_run. assert (G : (1 <= keyword_length (b_init based_on) <= 32766)%Z) by (destruct based_on; cbn [b_init keyword_length]; [exact Hb|lia]).
    revert G. generalize (b_init based_on). induction cs as [|c cs IH]; intros b G; [exact G|]. cbn [fold_left]. apply IH. unfold b_next.
    destruct c as [[v|]|[v|]|[[|a v]|]|[[|a lat]|] [[|e lon]|] r n|n|f| | | | |]; cbn [b_step]; try exact G. destruct (Z.ltb_spec n 1); [exact G|]. destruct (Z.ltb_spec 32766 n); [exact G|]. cbn [keyword_length]. lia.
  - unfold o, b_run. clear Hb o. replace (keyword_length (base_of based_on)) with (keyword_length (b_init based_on)) by (destruct based_on; reflexivity). generalize (b_init based_on) as b. induction cs as [|c cs IH]; intro b; [reflexivity|]. cbn [fold_left last_given]. rewrite IH. f_equal. unfold b_next.
    destruct c as [[v|]|[v|]|[[|a v]|]|[[|a lat]|] [[|e lon]|] r n|n|f| | | | |]; cbn [b_step]; try reflexivity. destruct (Z.ltb_spec n 1); [destruct (Z.leb_spec 1 n); [lia|reflexivity]|]. destruct (Z.leb_spec 1 n); [|lia]. destruct (Z.ltb_spec 32766 n), (Z.leb_spec n 32766); try lia; reflexivity.
  - intro n. cbn [b_step]. destruct (Z.ltb_spec n 1); [intuition|]. destruct (Z.ltb_spec 32766 n); [intuition|]. split; [discriminate|lia].
Qed.
Print Assumptions C40_keyword.
(** The other fields are what the calls say. *)
Definition true_given lower (c : bcall) (s : pystr) : Prop := exists v, c = BTrue (Some v) /\ s = lower v.
Definition false_given lower (c : bcall) (s : pystr) : Prop := exists v, c = BFalse (Some v) /\ s = lower v.
Definition date_given (c : bcall) (s : pystr) : Prop := (c = BDate (Some s) /\ s <> []) \/ (c = BResetDates /\ In s [DATETIME_STR; DATE_STR; NAIVE_DATETIME_STR]).
Theorem C40_others : forall lower based_on cs, match based_on with Some b => sets_ok b | None => True end ->
  let o := b_run lower based_on cs in
  (forall s, In s (true_values o) <-> there (true_given lower) (fun c _ => c = BClearTrue) (true_values (base_of based_on)) cs s)
  /\ (forall s, In s (false_values o) <-> there (false_given lower) (fun c _ => c = BClearFalse) (false_values (base_of based_on)) cs s)
  /\ (forall s, In s (date_formats o) <-> there date_given (fun c _ => c = BClearDates \/ c = BResetDates) (date_formats (base_of based_on)) cs s)
  /\ float_format o = last_given (fun c => match c with BFloat f => Some f | _ => None end) cs (float_format (base_of based_on)).
Proof.
  intros lower based_on cs Hb o. unfold o, b_run. rewrite (init_geo based_on Hb). split; [|split; [|split]]; [intro s|intro s|intro s|].
  1: apply (there_run lower true_values (true_given lower) (fun c _ => c = BClearTrue)).
  2: apply (there_run lower false_values (false_given lower) (fun c _ => c = BClearFalse)).
  3: apply (there_run lower date_formats date_given (fun c _ => c = BClearDates \/ c = BResetDates)).
  1-3: intros b c x; unfold b_next, true_given, false_given, date_given; destruct c as [[v|]|[v|]|[[|a v]|]|[[|a lat]|] [[|e lon]|] r n|n|f| | | | |]; cbn [b_step true_values false_values date_formats set_true set_false set_dates set_hints];
    try (destruct (n <? 1)%Z; [|destruct (32766 <? n)%Z]); cbn [true_values false_values date_formats]; rewrite ?sadd_str_In;
    try solve [split; [intro K; right; split; [exact K|discriminate]|intros [(w & D & _)|[K _]]; [discriminate D|exact K]]
              |split; [intro K; right; split; [exact K|intros [D|D]; discriminate D]|intros [[[D N]|[D N]]|[K _]]; [try discriminate D; injection D; congruence|discriminate D|exact K]]].
  - split; [intros [->|K]; [left; exists v; auto|right; split; [exact K|discriminate]]|intros [(w & D & ->)|[K _]]; [left; injection D as <-; reflexivity|right; exact K]].
  - split; [intros []|]. intros [(w & D & _)|[_ K]]; [discriminate|contradiction].
  - split; [intros [->|K]; [left; exists v; auto|right; split; [exact K|discriminate]]|intros [(w & D & ->)|[K _]]; [left; injection D as <-; reflexivity|right; exact K]].
  - split; [intros []|]. intros [(w & D & _)|[_ K]]; [discriminate|contradiction].
  - split; [intros [->|K]; [left; left; split; [reflexivity|discriminate]|right; split; [exact K|intros [D|D]; discriminate]]|intros [[[D _]|[D _]]|[K _]]; [left; injection D as <-; reflexivity|discriminate|right; exact K]].
  - split; [intros []|]. intros [[[D _]|[D _]]|[_ K]]; [discriminate|discriminate|]. exfalso. apply K. left. reflexivity.
  - split; [intros [E|[E|[E|[]]]]; left; right; (split; [reflexivity|]); cbn [In]; auto|]. intros [[[D _]|[_ K]]|[_ K]]; [discriminate|cbn [In] in K; destruct K as [K|[K|[K|[]]]]; auto|exfalso; apply K; right; reflexivity].
  - generalize (base_of based_on) as b. clear. induction cs as [|c cs IH]; intro b; [reflexivity|]. cbn [fold_left last_given]. rewrite IH. f_equal. unfold b_next.
    destruct c as [[v|]|[v|]|[[|a v]|]|[[|a lat]|] [[|e lon]|] r n|n|f| | | | |]; cbn [b_step]; try reflexivity. destruct (n <? 1)%Z; [|destruct (32766 <? n)%Z]; reflexivity.
Qed.
Print Assumptions C40_others.
(** Whatever was built can be stored and read back. *)
Theorem C40_built_roundtrip : forall lower cs cs', let o := b_run lower None cs in
  from_doc (to_doc o) = Some o /\ from_doc (to_doc (b_run lower (Some o) cs')) = Some (b_run lower (Some o) cs') /\ b_run lower (Some o) [] = o.
Proof.
  intros lower cs cs' o. assert (H : sets_ok o) by (apply b_run_ok; exact I). split; [apply C40_roundtrip, H|]. split; [apply C40_roundtrip, b_run_ok, H|]. unfold b_run at 1. cbn [fold_left]. apply b_init_some, H.
Qed.
Print Assumptions C40_built_roundtrip.
Definition opt_calls : list bcall :=
  [BTrue (Some (lit "Yes")); BTrue (Some (lit "yes")); BGeo (Some (lit "lat")) (Some (lit "lon")) None 16; BKeyword 40000; BKeyword 256;
   BGeo (Some (lit "y")) (Some (lit "x")) (Some (lit "r")) 8; BGeo (Some (lit "lat")) (Some (lit "long")) None 32; BGeo (Some (lit "z")) (Some []) None 16].
Definition ascii_lower (s : pystr) : pystr := map (fun c => if (65 <=? c)%N && (c <=? 90)%N then (c + 32)%N else c) s.
Definition opt_built : options := b_run ascii_lower None opt_calls.
Example C40_example : sets_ok opt_built /\ from_doc (to_doc opt_built) = Some opt_built
  /\ geo_hints opt_built = [Hint (lit "y") (lit "x") (Some (lit "r")) 8; Hint (lit "lat") (lit "long") None 32]
  /\ keyword_length opt_built = 256%Z /\ true_values opt_built = [lit "yes"]
  /\ there hint_given hint_dropped [] opt_calls (Hint (lit "lat") (lit "long") None 32).
Proof.
  assert (H : sets_ok opt_built) by (apply b_run_ok; exact I). split; [exact H|]. split; [apply C40_roundtrip, H|]. repeat split; try reflexivity.
  apply (proj1 (proj1 (C40_hints ascii_lower None opt_calls I) _)). vm_compute. auto.
Qed.

(** ** C63: arguments that are to be ignored *)
Definition blank (s : option pystr) : bool := match s with None | Some [] => true | _ => false end.
Theorem C63_blank_refuted : exists lower b v, blank v = true /\ b_step lower b (BTrue v) <> Some b /\ b_step lower b (BFalse v) <> Some b.
Proof. exists ascii_lower, (b_init None), (Some []). vm_compute. repeat split; discriminate. Qed.
Print Assumptions C63_blank_refuted.
Theorem C63_blank_partial : forall lower b,
  (forall v, blank v = true -> b_step lower b (BDate v) = Some b)
  /\ (forall lat lon r n, blank lat = true \/ blank lon = true -> b_step lower b (BGeo lat lon r n) = Some b)
  /\ b_step lower b (BTrue None) = Some b /\ b_step lower b (BFalse None) = Some b
  /\ (lower [] = [] -> In [] (true_values b) -> b_step lower b (BTrue (Some [])) = Some b).
Proof.
  intros lower b. repeat split.
  - intros [[|]|] H; try discriminate; reflexivity.
  - intros lat lon r n H. destruct lat as [[|x lat]|], lon as [[|y lon]|]; try reflexivity. destruct H; discriminate.
  - intros E H. cbn [b_step]. rewrite E. unfold sadd. apply smem_str in H. rewrite H. destruct b; reflexivity.
Qed.
Print Assumptions C63_blank_partial.
(** The empty string is left out by the other two calls exactly when it is there already. *)
Theorem C63_exact : forall lower b, lower [] = [] ->
  (b_step lower b (BTrue (Some [])) = Some b <-> In [] (true_values b)) /\
  (b_step lower b (BFalse (Some [])) = Some b <-> In [] (false_values b)).
Proof.
  intros lower b E. cbn [b_step]. rewrite E. unfold sadd. split.
  - destruct (smem str_eqb [] (true_values b)) eqn:M.
    + apply smem_str in M. split; [intros _; exact M|intros _; destruct b; reflexivity].
    + split; [|intro H; apply smem_str in H; congruence]. intro H. destruct b as [t f d g k ff]. cbn in H. injection H as H.
      exfalso. apply (f_equal (@Datatypes.length _)) in H. rewrite app_length in H. cbn in H. lia.
  - destruct (smem str_eqb [] (false_values b)) eqn:M.
    + apply smem_str in M. split; [intros _; exact M|intros _; destruct b; reflexivity].
    + split; [|intro H; apply smem_str in H; congruence]. intro H. destruct b as [t f d g k ff]. cbn in H. injection H as H.
      exfalso. apply (f_equal (@Datatypes.length _)) in H. rewrite app_length in H. cbn in H. lia.
Qed.
Print Assumptions C63_exact.
(** a builder with "" among its true values, and calls that leave it as it is *)
Example C63_example : let b := b_run ascii_lower None [BTrue (Some []); BTrue (Some (lit "YES")); BDate (Some (lit "%Y"))] in
  ascii_lower [] = [] /\ In [] (true_values b) /\ In (lit "yes") (true_values b) /\
  b_run ascii_lower (Some b) [BDate (Some []); BGeo (Some (lit "lat")) None None 8%Z; BTrue None; BTrue (Some [])] = b.
Proof. cbv zeta. split; [reflexivity|]. split; [vm_compute; tauto|]. split; [vm_compute; auto 20|vm_compute; reflexivity]. Qed.

(** ** C41: storing changed options *)
(** Equality of options as update_options sees it. *)
Lemma opts_eqb_equal a b : sets_ok a -> opts_eqb a b = true <-> opts_equal a b.
Proof.
  intros (H1 & H2 & H3 & H4). unfold opts_eqb. rewrite !andb_true_iff, !set_eqb_str, set_eqb_hint, Z.eqb_eq, str_eqb_eq by assumption.
  split; [intros (((((A & B) & C) & D) & E) & F); constructor; assumption|intros [A B C D E F]; repeat split; assumption].
Qed.
Lemma fold_max_in (r : list Z) k : In (fold_left Z.max r k) (k :: r).
Proof. revert k. induction r as [|x r IH]; intro k; [left; reflexivity|]. cbn [fold_left]. destruct (IH (Z.max k x)) as [<-|H]; [|right; right; exact H]. destruct (Z.max_spec k x) as [[_ ->]|[_ ->]]; [right; left|left]; reflexivity. Qed.
Lemma fold_max_ge (r : list Z) k x : In x (k :: r) -> (x <= fold_left Z.max r k)%Z.
Proof.
  revert k x. induction r as [|y r IH]; intros k x H; [destruct H as [<-|[]]; cbn; lia|]. cbn [fold_left]. pose proof (IH (Z.max k y) (Z.max k y) (or_introl eq_refl)) as M. destruct H as [<-|[<-|H]]; [lia|lia|].
  apply IH. right. exact H.
Qed.
Lemma zmax_key_is {V} (m : list (Z * V)) v : In v (zkeys m) -> (forall x, In x (zkeys m) -> (x <= v)%Z) -> zmax_key m = Some v.
Proof.
  unfold zmax_key. destruct (zkeys m) as [|k r]; [intros []|]. intros H M. f_equal. pose proof (M _ (fold_max_in r k)). pose proof (fold_max_ge r k v H). lia.
Qed.
(** the options were accepted: they wait for the next commit *)
Definition waiting (cl : @client options) (name : pystr) (o : options) : Prop := In (ODoc name None o) (opts cl).
(** their commit makes them the ones of the database *)
Lemma commit_latest cl name o v l : opts cl = l ++ [ODoc name None o] -> (forall d w, In d l -> od_name d = name -> od_ver d = Some w -> (w < v)%Z) ->
  latest_options (fst (commit opts_eqb (b_init None) cl name v)) name = Some o.
Proof.
  intros E M. assert (U : has_uncommitted_options cl = true) by (unfold has_uncommitted_options; rewrite E, existsb_app; cbn; apply orb_true_r).
  assert (R : snd (commit opts_eqb (b_init None) cl name v) <> None) by (rewrite commit_result, U, andb_false_r; discriminate).
  pose proof (commit_opts opts_eqb (b_init None) cl name v R) as C. unfold commit_opts_before in C. rewrite U, andb_false_r, E, map_app in C. cbn [map commit_odoc od_ver od_name od_opts] in C.
  set (cl' := fst (commit opts_eqb (b_init None) cl name v)) in *. clearbody cl'.
  assert (G : exists m, get_options cl' name = zset m v o).
  { unfold get_options. rewrite C, fold_left_app. cbn [fold_left od_ver od_name od_opts]. rewrite str_eqb_refl. eexists. reflexivity. }
  destruct G as [m G]. assert (K : zmax_key (get_options cl' name) = Some v).
  { apply zmax_key_is.
    - rewrite (get_options_versions opts_eqb (b_init None)). exists (ODoc name (Some v) o). rewrite C. split; [apply in_or_app; right; left; reflexivity|split; reflexivity].
    - intros x Hx. rewrite (get_options_versions opts_eqb (b_init None)) in Hx. destruct Hx as (d & Hd & Hn & Hv). rewrite C in Hd. apply in_app_or in Hd. destruct Hd as [Hd|[<-|[]]]; [|cbn in Hv; injection Hv as <-; lia].
      apply in_map_iff in Hd. destruct Hd as (d0 & <- & Hd). unfold commit_odoc in Hn, Hv. destruct (od_ver d0) as [w|] eqn:Ew; [|cbn in Hv; injection Hv as <-; lia].
      rewrite Ew in Hv. injection Hv as <-. pose proof (M d0 w Hd Hn Ew). lia. }
  unfold latest_options. rewrite K, G, zget_zset, Z.eqb_refl. reflexivity.
Qed.

(** Options that share their latitude fields with the latest ones are taken to be the same. *)
Theorem C41_update_options_refuted : exists cl name l o,
  latest_options cl name = Some l /\ sets_ok l /\ sets_ok o /\ geo_hints l <> geo_hints o /\ ~ Permutation (geo_hints l) (geo_hints o)
  /\ ~ waiting (update_options opts_eqb cl name o) name o
  /\ forall v, latest_options (fst (commit opts_eqb (b_init None) (update_options opts_eqb cl name o) name v)) name = Some l.
Proof.
  exists (Client (fun _ => []) [ODoc (lit "d") (Some 5%Z) (b_run ascii_lower None [BGeo (Some (lit "lat")) (Some (lit "lon")) None 16])]), (lit "d"),
    (b_run ascii_lower None [BGeo (Some (lit "lat")) (Some (lit "lon")) None 16]), (b_run ascii_lower None [BGeo (Some (lit "lat")) (Some (lit "long")) None 16]).
  split; [reflexivity|]. split; [apply b_run_ok; exact I|]. split; [apply b_run_ok; exact I|]. split; [discriminate|]. split.
  { intro P. apply Permutation_length_1 in P. discriminate. }
  split; [intros [H|[]]; discriminate|]. intro v. reflexivity.
Qed.
Print Assumptions C41_update_options_refuted.
(** Options are stored exactly when some field other than the details of the hints differs, and are the
    latest ones after the next commit. *)
Theorem C41_update_options_partial : forall cl name o, (forall l, latest_options cl name = Some l -> sets_ok l) ->
  let cl' := update_options opts_eqb cl name o in
  (waiting cl' name o <-> forall l, latest_options cl name = Some l -> ~ opts_equal l o)
  /\ (waiting cl' name o -> forall v, (forall d w, In d (opts cl) -> od_name d = name -> od_ver d = Some w -> (w < v)%Z) ->
        latest_options (fst (commit opts_eqb (b_init None) cl' name v)) name = Some o)
  /\ (~ waiting cl' name o -> exists l, latest_options cl name = Some l /\ latest_options cl' name = Some l /\ opts_equal l o).
Proof.
  intros cl name o Hl cl'.
  set (old := filter (fun d => negb (o_pending d)) (opts cl)).
  assert (B : opts (if has_uncommitted_options cl then rollback_options cl else cl) = old).
  { unfold has_uncommitted_options. destruct (existsb o_pending (opts cl)) eqn:U; [reflexivity|]. unfold old. clear - U. revert U. generalize (opts cl). intro l. induction l as [|d l IH]; [reflexivity|]. cbn [existsb filter]. intro U. apply orb_false_iff in U. destruct U as [U1 U2]. rewrite U1. cbn [negb]. f_equal. apply IH, U2. }
  assert (N : ~ In (ODoc name None o) old) by (unfold old; intro K; apply filter_In in K; destruct K as [_ K]; discriminate).
  assert (W : waiting cl' name o <-> forall l, latest_options cl name = Some l -> ~ opts_equal l o).
  { unfold waiting, cl', update_options. destruct (latest_options cl name) as [l|] eqn:El.
    - destruct (opts_eqb l o) eqn:Eo.
      + rewrite B. apply (opts_eqb_equal l o (Hl l eq_refl)) in Eo. split; [intro K; contradiction|]. intro K. exfalso. exact (K l eq_refl Eo).
      + cbn [opts set_opts]. split; [|intros _; apply in_or_app; right; left; reflexivity]. intros _ l' E' K. injection E' as <-. apply (opts_eqb_equal l o (Hl l eq_refl)) in K. congruence.
    - cbn [opts set_opts]. split; [intros _ l E; discriminate|intros _; apply in_or_app; right; left; reflexivity]. }
  split; [exact W|]. split.
  - intros Hw v Hv. apply (commit_latest cl' name o v old).
    + unfold cl', update_options. destruct (latest_options cl name) as [l|] eqn:El; [|cbn [opts set_opts]; rewrite B; reflexivity].
      destruct (opts_eqb l o) eqn:Eo; [|cbn [opts set_opts]; rewrite B; reflexivity]. exfalso. apply (opts_eqb_equal l o (Hl l eq_refl)) in Eo. exact (proj1 W Hw l eq_refl Eo).
    + intros d w Hd. unfold old in Hd. apply filter_In in Hd. apply Hv, Hd.
  - intro Hw. destruct (latest_options cl name) as [l|] eqn:El; [|exfalso; apply Hw, W; intros l E; discriminate].
    destruct (opts_eqb l o) eqn:Eo; [|exfalso; apply Hw, W; intros l' E' K; injection E' as <-; apply (opts_eqb_equal l o (Hl l eq_refl)) in K; congruence].
    exists l. split; [reflexivity|]. split; [|apply (opts_eqb_equal l o (Hl l eq_refl)), Eo].
    assert (EG : get_options cl' name = get_options cl name).
    { unfold get_options, cl', update_options. rewrite El, Eo, B. unfold old. generalize (@nil (Z * options)) as m. generalize (opts cl) as ds. clear. intro ds. induction ds as [|d ds IH]; intro m; [reflexivity|]. cbn [filter fold_left]. unfold o_pending at 1. destruct (od_ver d) as [w|] eqn:E; cbn [negb]; [cbn [fold_left]; rewrite E|]; apply IH. }
    unfold latest_options in *. rewrite EG. exact El.
Qed.
Print Assumptions C41_update_options_partial.
(** So differences in the sets of values, formats and latitude fields, the length and the float format are
    stored. *)
Theorem C41_differs_partial : forall cl name o l, latest_options cl name = Some l -> sets_ok l ->
  (exists s, In s (true_values l) /\ ~ In s (true_values o)) \/ (exists s, ~ In s (true_values l) /\ In s (true_values o))
  \/ (exists s, In s (false_values l) /\ ~ In s (false_values o)) \/ (exists s, ~ In s (false_values l) /\ In s (false_values o))
  \/ (exists s, In s (date_formats l) /\ ~ In s (date_formats o)) \/ (exists s, ~ In s (date_formats l) /\ In s (date_formats o))
  \/ (exists h, In h (geo_hints l) /\ forall h', In h' (geo_hints o) -> h_lat h' <> h_lat h) \/ (exists h', In h' (geo_hints o) /\ forall h, In h (geo_hints l) -> h_lat h <> h_lat h')
  \/ keyword_length l <> keyword_length o \/ float_format l <> float_format o ->
  waiting (update_options opts_eqb cl name o) name o.
Proof.
  intros cl name o l El Hl D. apply C41_update_options_partial; [intros l' E; congruence|]. intros l' E' K. rewrite El in E'. injection E' as <-. destruct K as [K1 K2 K3 K4 K5 K6].
  assert (P : forall (a b : list pystr) x, Permutation a b -> In x a -> ~ In x b -> False) by (intros a b x P H N; exact (N (Permutation_in _ P H))).
  destruct D as [(s & A & B)|[(s & A & B)|[(s & A & B)|[(s & A & B)|[(s & A & B)|[(s & A & B)|[(h & A & B)|[(h & A & B)|[D|D]]]]]]]]]; try contradiction.
  - exact (P _ _ s K1 A B).
  - exact (P _ _ s (Permutation_sym K1) B A).
  - exact (P _ _ s K2 A B).
  - exact (P _ _ s (Permutation_sym K2) B A).
  - exact (P _ _ s K3 A B).
  - exact (P _ _ s (Permutation_sym K3) B A).
  - apply (in_map h_lat) in A. apply (Permutation_in _ K4), in_map_iff in A. destruct A as (h' & E & A). exact (B h' A E).
  - apply (in_map h_lat) in A. apply (Permutation_in _ (Permutation_sym K4)), in_map_iff in A. destruct A as (h' & E & A). exact (B h' A E).
Qed.
Print Assumptions C41_differs_partial.
Definition opt_client : @client options := Client (fun _ => []) [ODoc (lit "d") (Some 5%Z) (b_init None); ODoc (lit "d") None (b_init None)].
Example C41_example : latest_options opt_client (lit "d") = Some (b_init None) /\ sets_ok (b_init None)
  /\ ~ opts_equal (b_init None) opt_built
  /\ waiting (update_options opts_eqb opt_client (lit "d") opt_built) (lit "d") opt_built
  /\ latest_options (fst (commit opts_eqb (b_init None) (update_options opts_eqb opt_client (lit "d") opt_built) (lit "d") 9)) (lit "d") = Some opt_built.
Proof.
  assert (H : sets_ok (b_init None)) by exact (b_run_ok ascii_lower None [] I). split; [reflexivity|]. split; [exact H|]. split; [intro K; apply (opts_eqb_equal _ _ H) in K; vm_compute in K; discriminate|].
  split; [right; left; reflexivity|]. vm_compute. reflexivity.
Qed.

(** ** C58, from the builder on *)
(** Calls of the builder that leave the date formats alone, or set them to the default. *)
Definition keeps_dates (c : bcall) : Prop := match c with BDate (Some (_ :: _)) | BClearDates => False | _ => True end.
(** With options built without other date formats, dates are indexed as the time they are (see PropsDates.v). *)
Theorem C58_built_partial : forall db pad L lower cs v t, PropsDates.std_dates L -> (forall c, In c cs -> keeps_dates c) -> PropsDates.moment_of v t -> pad = true \/ (1000 <= dyear t)%Z ->
  dget (parse_value L (b_run lower None cs) (prepare_data db pad v)) (lit "_d") = Some (VInt (to_timestamp 0 t)).
Proof.
  intros db pad L lower cs v t HL Hc M Hp. apply PropsDates.C58_dates_partial; auto. unfold PropsDates.default_formats, b_run.
  assert (H0 : Permutation (date_formats (b_init None)) [DATETIME_STR; DATE_STR; NAIVE_DATETIME_STR]) by apply Permutation_refl. revert H0. generalize (b_init None). induction cs as [|c cs IH]; intros b H0; [exact H0|]. cbn [fold_left]. apply IH; [intros c' K; apply Hc; right; exact K|].
  specialize (Hc c (or_introl eq_refl)). unfold b_next. destruct c as [[x|]|[x|]|[[|a x]|]|[[|a lat]|] [[|e lon]|] rd n|n|f| | | | |]; cbn [b_step]; try exact H0; try contradiction; [|apply Permutation_refl].
  - destruct (n <? 1)%Z; [exact H0|]. destruct (32766 <? n)%Z; exact H0.
Qed.
Print Assumptions C58_built_partial.
Example C58_built_example : PropsDates.std_dates PropsDates.std_lib /\ (forall c, In c [BTrue (Some (lit "yes")); BResetDates] -> keeps_dates c).
Proof. split; [exact (proj1 PropsDates.C58_example)|]. intros c [<-|[<-|[]]]; exact I. Qed.
