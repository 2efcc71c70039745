(** What [patch] of a [diff] gives, place by place. *)
From Coq Require Import List ZArith NArith Bool Lia.
From Verif Require Import PyVal PyEq Diff DiffProofs.
Import ListNotations.

(** [kept l x r]: [x] is what patching [l] towards [r] gives: equal data is kept from [l], containers
    of one kind are taken apart, everything else comes from [r]. *)
Inductive kept : option value -> value -> value -> Prop :=
| k_new r : kept None r r
| k_same l r : py_eqb l r = true -> kept (Some l) l r
| k_other l r : py_eqb l r = false -> deep l r = None -> kept (Some l) r r
| k_list l x r : length x = length r ->
    (forall i a b, nth_error x i = Some a -> nth_error r i = Some b -> kept (nth_error l i) a b) ->
    kept (Some (VList l)) (VList x) (VList r)
| k_dict l x r : (forall k, dget x k = None <-> dget r k = None) ->
    (forall k a b, dget x k = Some a -> dget r k = Some b -> kept (dget l k) a b) ->
    kept (Some (VDict l)) (VDict x) (VDict r).

  Lemma kept_c n : forall c m os, vsize (cleft c) <= n -> cpath c = [] ->
    wf (cleft c) -> wf (cright c) -> py_eqb (cleft c) (cright c) = false ->
    diff_loop m [c] = Some os ->
    exists x, patch_loop (cleft c) os = Some x /\ kept (Some (cleft c)) x (cright c).
  Proof.
    induction n as [|n IH]; intros c m os Hsz Hp Hwl Hwr Hco Hd.
    { pose proof (vsize_pos (cleft c)); lia. }
    destruct m as [|m]; [discriminate|]. cbn [diff_loop] in Hd.
    destruct (compare c) as [o fu] eqn:Ec.
    destruct (diff_loop m ([] ++ fu)) as [rest|] eqn:Er; [|discriminate]. cbn [app] in Er.
    assert (os = (match o with Some d => [d] | None => [] end) ++ rest) as ->
      by (destruct o; inversion Hd; reflexivity).
    assert (Forall headed fu) as Hfu.
    { apply Forall_forall. intros c' Hc'. apply (compare_headed c). rewrite Ec. exact Hc'. }
    rewrite patch_loop_app.
    destruct c as [p l r|p l r]; cbn [cpath cleft cright] in *; subst p.
    - pose proof Hwl as Hwl'. pose proof Hwr as Hwr'.
      apply wf_dict in Hwl'. apply wf_dict in Hwr'.
      destruct Hwl' as [Hnl _], Hwr' as [Hnr _].
      destruct (compare_dict_apply l r Hnl Hnr) as [d [Hd1 [Hd2 Hd3]]].
      rewrite Ec in Hd1. cbn [fst] in Hd1. rewrite Hd1.
      assert (fu = snd (dict_changes [] l r)) as Hfue.
      { cbn [compare] in Ec. destruct (dict_changes [] l r); inversion Ec; reflexivity. }
      assert (forall k, exists os', diff_loop m (restrictC (PK k) fu) = Some os' /\ restrict (PK k) rest = os') as Hres.
      { intros k. destruct (diff_loop_restrict _ _ _ (PK k) Hfu Er) as [H _]. eauto. }
      (* per key outcome *)
      assert (forall k c, dget d k = Some c -> exists rv c', dget r k = Some rv /\
                patch_loop c (restrict (PK k) rest) = Some c' /\ kept (dget l k) c' rv) as Hkey.
      { intros k c Hc. rewrite Hd3 in Hc.
        destruct (dget r k) as [rv|] eqn:Erk; [|discriminate].
        destruct (Hres k) as [os' [Hos' Hre]].
        pose proof (dict_changes_spec l r k Hnl) as [_ Hspec]. rewrite <- Hfue, Erk in Hspec.
        exists rv. destruct (dget l k) as [lv|] eqn:Elk.
        - destruct (py_eqb lv rv) eqn:Eeq.
          + destruct Hspec as [Hs1 Hs2]. rewrite Hs1 in Hc. inversion Hc; subst c.
            rewrite Hs2 in Hos'. destruct m; inversion Hos' as [He];
            (exists lv; split; [reflexivity|]; rewrite Hre, <- He; split; [reflexivity|];
             apply k_same; exact Eeq).
          + destruct (deep lv rv) as [c0|] eqn:Edp.
            * destruct Hspec as [Hs1 Hs2]. rewrite Hs1 in Hc. inversion Hc; subst c.
              rewrite Hs2 in Hos'. destruct (deep_size _ _ _ Edp) as [Hp0 [Hl0 Hr0]].
              destruct (IH c0 m os') as [x [Hx1 Hx2]]; rewrite ?Hl0, ?Hr0; auto.
              -- pose proof (vsize_dget _ _ _ Elk). lia.
              -- eapply wf_sub; [eapply sub_dget; eauto|assumption].
              -- eapply wf_sub; [eapply sub_dget; eauto|assumption].
              -- rewrite Hl0 in Hx1, Hx2; rewrite Hr0 in Hx2. exists x. rewrite Hre. auto.
            * destruct Hspec as [Hs1 Hs2]. rewrite Hs1 in Hc. inversion Hc; subst c.
              rewrite Hs2 in Hos'. destruct m; inversion Hos' as [He];
              (exists rv; split; [reflexivity|]; rewrite Hre, <- He; split; [reflexivity|];
               apply k_other; assumption).
        - destruct Hspec as [Hs1 Hs2]. inversion Hc; subst c.
          rewrite Hs2 in Hos'. destruct m; inversion Hos' as [He];
            (exists rv; split; [reflexivity|]; rewrite Hre, <- He; split; [reflexivity|];
             apply k_new). }
      destruct (patch_dict rest d) as [d' [H1 [H2 H3]]].
      + intros o' Ho'.
        destruct (diff_loop_restrict _ _ _ (PK []) Hfu Er) as [_ Hf].
        rewrite Forall_forall in Hf. destruct (Hf _ Ho') as [k0 [s0 Hp0]].
        destruct (diff_loop_restrict _ _ _ k0 Hfu Er) as [Hk0 _].
        assert (restrictC k0 fu <> []) as Hne.
        { intros He. rewrite He in Hk0.
          assert (restrict k0 rest = []) as Hr0 by (destruct m; simpl in Hk0; congruence).
          clear - Ho' Hp0 Hr0. induction rest as [|o1 rest IHr]; [contradiction|].
          simpl in Hr0. destruct Ho' as [->|Ho'].
          - rewrite Hp0 in Hr0. destruct (pkey_eq_dec k0 k0); congruence.
          - destruct (dpath o1) as [|k1 p1]; [auto|]. destruct (pkey_eq_dec k0 k1); [discriminate|auto]. }
        assert (exists c1, In (consC k0 c1) fu) as [c1 Hc1].
        { clear - Hne Hfu. induction fu as [|c fu IHf]; [simpl in Hne; congruence|].
          inversion Hfu; subst. destruct (headed_inv _ H1) as [k1 [c1 ->]].
          destruct (pkey_eq_dec k0 k1) as [->|Hn]; [exists c1; left; reflexivity|].
          rewrite restrictC_cons_other in Hne by exact Hn. destruct (IHf H2 Hne) as [c2 Hc2].
          exists c2; right; exact Hc2. }
        rewrite Hfue in Hc1. apply (dict_changes_keys l r) in Hc1.
        destruct Hc1 as (k & lv & rv & c0 & He & Hi & Hgr & _).
        assert (k0 = PK k) as -> by (destruct c1, c0; inversion He; reflexivity).
        exists k, s0. split; [exact Hp0|].
        assert (dget l k = Some lv) as Hgl by (apply In_dget; assumption).
        destruct (dget d k) as [x|] eqn:Ek; [eapply dget_Some_key; eauto|].
        rewrite Hd3, Hgr, Hgl in Ek. destruct (dget (fst (dict_changes [] l r)) k); discriminate.
      + intros k c Hc. destruct (Hkey k c Hc) as [rv [c' [_ [H _]]]]. eauto.
      + exists (VDict d'). split; [exact H1|]. apply k_dict.
        * intros k. rewrite dget_None, H2, <- dget_None, Hd3.
          destruct (dget r k) as [rv|]; [|tauto].
          destruct (dget l k) as [lv|]; [|split; discriminate].
          destruct (dget (fst (dict_changes [] l r)) k); split; discriminate.
        * intros k x y Hx Hy.
          destruct (dget d k) as [c|] eqn:Ek.
          -- destruct (H3 _ _ Ek) as [c' [Hc1 Hc2]].
             destruct (Hkey _ _ Ek) as [rv [c'' [Hr1 [Hr2 Hr3]]]].
             congruence.
          -- apply dget_None in Ek. rewrite <- H2 in Ek. apply dget_None in Ek. congruence.
    - destruct (compare_list_apply l r) as [l3 [Hd1 [Hd2 Hd3]]].
      rewrite Ec in Hd1, Hd3. cbn [fst snd] in Hd1, Hd3. rewrite Hd1.
      assert (forall k, exists os', diff_loop m (restrictC k fu) = Some os' /\ restrict k rest = os') as Hres.
      { intros k. destruct (diff_loop_restrict _ _ _ k Hfu Er) as [H _]. eauto. }
      assert (forall i c, nth_error l3 i = Some c -> exists rv c', nth_error r i = Some rv /\
                patch_loop c (restrict (PI i) rest) = Some c' /\ kept (nth_error l i) c' rv) as Hkey.
      { intros i c Hc.
        destruct (nth_error r i) as [rv|] eqn:Eri.
        2:{ apply nth_error_None in Eri. assert (nth_error l3 i <> None) by congruence.
            apply nth_error_Some in H. lia. }
        destruct (Hres (PI i)) as [os' [Hos' Hre]]. exists rv.
        destruct (Hd3 i c rv Hc Eri) as [[He [Hz Hr0]]|[[Hl0 [He Hr0]]|[Hl0 [He [c0 [Edp Hr0]]]]]];
          rewrite Hr0 in Hos'.
        - subst c. assert (os' = []) as -> by (destruct m; simpl in Hos'; congruence).
          exists rv. rewrite Hre. split; [reflexivity|]. split; [reflexivity|]. destruct (nth_error l i) as [z|] eqn:Ez; [destruct (Hz z eq_refl); apply k_other; assumption|apply k_new].
        - assert (os' = []) as -> by (destruct m; simpl in Hos'; congruence).
          exists c. rewrite Hre. split; [reflexivity|]. split; [reflexivity|].
          rewrite Hl0; apply k_same; exact He.
        - destruct (deep_size _ _ _ Edp) as [Hp0 [Hlc Hrc]].
          destruct (IH c0 m os') as [x [Hx1 Hx2]]; rewrite ?Hlc, ?Hrc; auto.
          + pose proof (vsize_nth _ _ _ Hl0). lia.
          + eapply wf_sub; [eapply sub_nth; eauto|assumption].
          + eapply wf_sub; [eapply sub_nth; eauto|assumption].
          + rewrite Hlc in Hx1, Hx2; rewrite Hrc in Hx2. rewrite Hl0. exists x. rewrite Hre. auto. }
      destruct (patch_list rest l3) as [d' [H1 [H2 H3]]].
      + intros o' Ho'.
        destruct (diff_loop_restrict _ _ _ (PK []) Hfu Er) as [_ Hf].
        rewrite Forall_forall in Hf. destruct (Hf _ Ho') as [k0 [s0 Hp0]].
        destruct (diff_loop_restrict _ _ _ k0 Hfu Er) as [Hk0 _].
        assert (restrictC k0 fu <> []) as Hne.
        { intros He. rewrite He in Hk0.
          assert (restrict k0 rest = []) as Hr0 by (destruct m; simpl in Hk0; congruence).
          clear - Ho' Hp0 Hr0. induction rest as [|o1 rest IHr]; [contradiction|].
          simpl in Hr0. destruct Ho' as [->|Ho'].
          - rewrite Hp0 in Hr0. destruct (pkey_eq_dec k0 k0); congruence.
          - destruct (dpath o1) as [|k1 p1]; [auto|]. destruct (pkey_eq_dec k0 k1); [discriminate|auto]. }
        assert (exists c1, In (consC k0 c1) fu) as [c1 Hc1].
        { clear - Hne Hfu. induction fu as [|c fu IHf]; [simpl in Hne; congruence|].
          inversion Hfu; subst. destruct (headed_inv _ H1) as [k1 [c1 ->]].
          destruct (pkey_eq_dec k0 k1) as [->|Hn]; [exists c1; left; reflexivity|].
          rewrite restrictC_cons_other in Hne by exact Hn. destruct (IHf H2 Hne) as [c2 Hc2].
          exists c2; right; exact Hc2. }
        cbn [compare] in Ec. destruct (list_changes [] 0 l r) as [[[ch fu1] ln] ld] eqn:El.
        inversion Ec; subst fu1.
        destruct (restrictC_lt 0 _ _ _ _ _ _ _ El) as [_ Hin]. apply Hin in Hc1.
        destruct Hc1 as (j & lv & rv & c0 & He & Hnl & Hnr & _).
        assert (k0 = PI j) as -> by (destruct c1, c0; inversion He; reflexivity).
        exists j, s0. split; [exact Hp0|]. rewrite Hd2. apply nth_error_Some. congruence.
      + intros i c Hc. destruct (Hkey i c Hc) as [rv [c' [_ [H _]]]]. eauto.
      + exists (VList d'). split; [exact H1|]. apply k_list; [congruence|].
        intros i x y Hx Hy.
        destruct (nth_error l3 i) as [c|] eqn:Ek.
        * destruct (H3 _ _ Ek) as [c' [Hc1 Hc2]].
          destruct (Hkey _ _ Ek) as [rv [c'' [Hr1 [Hr2 Hr3]]]]. congruence.
        * apply nth_error_None in Ek. assert (nth_error d' i <> None) as Hn by congruence.
          apply nth_error_Some in Hn. lia.
  Qed.


Lemma kept_gen base new : wf (VDict base) -> wf (VDict new) ->
  exists d, patch base (diff base new) = Some d /\ kept (Some (VDict base)) (VDict d) (VDict new).
Proof.
  intros Hb Hn. unfold diff. destruct (py_eqb (VDict base) (VDict new)) eqn:E.
  - exists base. split; [reflexivity|]. apply k_same, E.
  - destruct (diff_loop_total base new) as [os Hos]. rewrite Hos.
    destruct (kept_c (vsize (VDict base)) (CDict [] base new) _ os (le_n _) eq_refl Hb Hn E Hos) as [x [Hx1 Hx2]].
    cbn [cleft cright] in *. unfold patch. rewrite Hx1.
    inversion Hx2; subst; eauto.
Qed.

(** ** Places *)
(** The value found by following keys and indices from [v]. *)
Fixpoint look (q : path) (v : value) : option value :=
  match q with
  | [] => Some v
  | PK k :: q' => match v with VDict d => match dget d k with Some x => look q' x | None => None end | _ => None end
  | PI i :: q' => match v with VList l => match nth_error l i with Some x => look q' x | None => None end | _ => None end
  end.

Lemma look_wf q : forall v x, wf v -> look q v = Some x -> wf x.
Proof.
  induction q as [|[k|i] q IH]; intros v x W H; cbn [look] in H; [injection H as <-; exact W| |].
  - destruct v; try discriminate H. destruct (dget d k) as [y|] eqn:E; [|discriminate H]. apply (IH y x); [|exact H]. eapply wf_dget; [exact W|exact E].
  - destruct v; try discriminate H. destruct (nth_error l i) as [y|] eqn:E; [|discriminate H]. apply (IH y x); [|exact H]. eapply wf_sub; [eapply sub_nth; exact E|exact W].
Qed.
Lemma look_eqb q : forall a b, wf a -> wf b -> py_eqb a b = true ->
  match look q a, look q b with Some x, Some y => py_eqb x y = true | None, None => True | _, _ => False end.
Proof.
  induction q as [|[k|i] q IH]; intros a b Wa Wb E; cbn [look]; [exact E| |].
  - destruct a as [| | | | | |d], b as [| | | | | |e]; try exact I; try discriminate E.
    pose proof (py_eqb_veq _ _ Wa Wb E) as Hv. inversion Hv as [? ? Hs| |? ? Hk Hk2]; subst; [discriminate|].
    destruct (dget d k) as [x|] eqn:Ex, (dget e k) as [y|] eqn:Ey.
    + apply IH; [eapply wf_dget; [exact Wa|exact Ex]|eapply wf_dget; [exact Wb|exact Ey]|].
      apply py_eqb_dict in E. destruct E as [_ Hn]. destruct (Hn _ _ (dget_In _ _ _ Ex)) as [w [Hw He]]. congruence.
    + apply Hk in Ey. congruence.
    + apply Hk in Ex. congruence.
    + exact I.
  - destruct a as [| | | | |l|], b as [| | | | |m|]; try exact I; try discriminate E.
    cbn [py_eqb] in E. apply list_eqb_nth in E. destruct E as [Hl Hn].
    destruct (nth_error l i) as [x|] eqn:Ex, (nth_error m i) as [y|] eqn:Ey.
    + apply IH; [eapply wf_sub; [eapply sub_nth; exact Ex|exact Wa]|eapply wf_sub; [eapply sub_nth; exact Ey|exact Wb]|].
      eapply Hn; eauto.
    + apply nth_error_None in Ey. assert (nth_error l i <> None) as X by congruence. apply nth_error_Some in X. lia.
    + apply nth_error_None in Ex. assert (nth_error m i <> None) as X by congruence. apply nth_error_Some in X. lia.
    + exact I.
Qed.

(** The value at one place, [b] being what the base has there and [n] what the new data has there. *)
Definition merged (b n x : option value) : Prop :=
  match n, x with
  | None, None => True
  | Some (VDict _), Some (VDict _) => True
  | Some (VList _), Some (VList _) => True
  | Some s, Some x => is_scalar s = true /\
      match b with
      | Some t => (is_scalar t = true /\ scalar_eqb t s = true /\ x = t) \/ (~ (is_scalar t = true /\ scalar_eqb t s = true) /\ x = s)
      | None => x = s
      end
  | _, _ => False
  end.

Lemma merged_new n : merged None n n.
Proof. destruct n as [[]|]; cbn; auto. Qed.
Lemma merged_same t s : py_eqb t s = true -> merged (Some t) (Some s) (Some t).
Proof.
  intro E. destruct t, s; try discriminate E; cbn [merged]; auto; (split; [reflexivity|]; left; split; [reflexivity|]; split; [exact E|reflexivity]).
Qed.
Lemma merged_differ t s : py_eqb t s = false -> merged (Some t) (Some s) (Some s).
Proof.
  intro E. destruct s; cbn [merged]; auto; (split; [reflexivity|]; right; split; [|reflexivity]; intros [Ht Hs]; rewrite py_eqb_scalar in E by (exact Ht || reflexivity); congruence).
Qed.

Lemma kept_merged l x r : kept l x r -> wf r -> match l with Some y => wf y | None => True end -> forall q,
  merged (match l with Some y => look q y | None => None end) (look q r) (look q x).
Proof.
  induction 1 as [r|l r E|l r E D|l x r Hl H IH|l x r Hk H IH]; intros Wr Wl q.
  - apply merged_new.
  - pose proof (look_eqb q l r Wl Wr E) as K. destruct (look q l), (look q r); try contradiction; [apply merged_same, K|exact I].
  - destruct q as [|p q]; [cbn [look]; apply merged_differ, E|].
    assert (X : look (p :: q) l = None \/ look (p :: q) r = None).
    { destruct p; cbn [look]; destruct l, r; auto; discriminate D. }
    destruct X as [X|X]; rewrite X; [apply merged_new|]. destruct (look (p :: q) l); exact I.
  - destruct q as [|[k|i] q]; [exact I|exact I|]. cbn [look].
    destruct (nth_error r i) as [b|] eqn:Eb, (nth_error x i) as [a|] eqn:Ea.
    + specialize (IH i a b Ea Eb). 
      assert (Wb : wf b) by (eapply wf_sub; [eapply sub_nth; exact Eb|exact Wr]).
      destruct (nth_error l i) as [c|] eqn:Ec; [|exact (IH Wb I q)].
      refine (IH Wb _ q). eapply wf_sub; [eapply sub_nth; exact Ec|exact Wl].
    + apply nth_error_None in Ea. assert (nth_error r i <> None) as X by congruence. apply nth_error_Some in X. lia.
    + apply nth_error_None in Eb. assert (nth_error x i <> None) as X by congruence. apply nth_error_Some in X. lia.
    + destruct (nth_error l i) as [c|]; [destruct (look q c)|]; exact I.
  - destruct q as [|[k|i] q]; [exact I| |exact I]. cbn [look].
    destruct (dget r k) as [b|] eqn:Eb, (dget x k) as [a|] eqn:Ea.
    + specialize (IH k a b Ea Eb).
      assert (Wb : wf b) by (eapply wf_sub; [eapply sub_dget; exact Eb|exact Wr]).
      destruct (dget l k) as [c|] eqn:Ec; [|exact (IH Wb I q)].
      refine (IH Wb _ q). eapply wf_sub; [eapply sub_dget; exact Ec|exact Wl].
    + apply Hk in Ea. congruence.
    + apply Hk in Eb. congruence.
    + destruct (dget l k) as [c|]; [destruct (look q c)|]; exact I.
Qed.

(** Identical data is data with the same scalar, or the same kind of container, at every place. *)
Definition place_same (x y : option value) : Prop :=
  match x, y with
  | None, None => True
  | Some (VDict _), Some (VDict _) => True
  | Some (VList _), Some (VList _) => True
  | Some s, Some t => s = t
  | _, _ => False
  end.

Lemma vident_places x y : vident x y <-> forall q, place_same (look q x) (look q y).
Proof.
  split.
  - induction 1 as [a b Ha Hb Hab|l m Hl _ IH|d e Hk _ IH]; intro q.
    + subst b. destruct (look q a) as [[]|]; cbn; auto.
    + destruct q as [|[k|i] q]; [exact I|exact I|]. cbn [look].
      destruct (nth_error l i) as [a|] eqn:Ea, (nth_error m i) as [b|] eqn:Eb.
      * exact (IH i a b Ea Eb q).
      * apply nth_error_None in Eb. assert (nth_error l i <> None) as X by congruence. apply nth_error_Some in X. lia.
      * apply nth_error_None in Ea. assert (nth_error m i <> None) as X by congruence. apply nth_error_Some in X. lia.
      * exact I.
    + destruct q as [|[k|i] q]; [exact I| |exact I]. cbn [look].
      destruct (dget d k) as [a|] eqn:Ea, (dget e k) as [b|] eqn:Eb.
      * exact (IH k a b Ea Eb q).
      * apply Hk in Eb. congruence.
      * apply Hk in Ea. congruence.
      * exact I.
  - revert y. induction x as [|a|a|a|a|l IH|d IH] using value_ind'; intros y H;
      try (pose proof (H []) as K; cbn in K; destruct y; try contradiction; try discriminate K; apply sim_scalar; [reflexivity|reflexivity|exact K]).
    + pose proof (H []) as K. destruct y as [| | | | |m|]; try contradiction; try discriminate K. apply sim_list.
      * destruct (Nat.lt_trichotomy (length l) (length m)) as [X|[X|X]]; [exfalso|exact X|exfalso].
        -- specialize (H [PI (length l)]). cbn [look] in H. assert (Y : nth_error l (length l) = None) by (apply nth_error_None; lia).
           rewrite Y in H. apply nth_error_Some in X. destruct (nth_error m (length l)); [exact H|congruence].
        -- specialize (H [PI (length m)]). cbn [look] in H. assert (Y : nth_error m (length m) = None) by (apply nth_error_None; lia).
           rewrite Y in H. apply nth_error_Some in X. destruct (nth_error l (length m)) as [[]|]; try exact H; congruence.
      * intros i a b Ea Eb. rewrite Forall_forall in IH. apply (IH a (nth_error_In _ _ Ea)). intro q.
        specialize (H (PI i :: q)). cbn [look] in H. rewrite Ea, Eb in H. exact H.
    + pose proof (H []) as K. destruct y as [| | | | | |e]; try contradiction; try discriminate K. apply sim_dict.
      * intro k. specialize (H [PK k]). cbn [look] in H. destruct (dget d k) as [[]|], (dget e k); cbn in H; try contradiction; split; try congruence; try tauto.
      * intros k a b Ea Eb. rewrite Forall_forall in IH. apply (IH (k, a) (dget_In _ _ _ Ea)). intro q.
        specialize (H (PK k :: q)). cbn [look] in H. rewrite Ea, Eb in H. exact H.
Qed.

Theorem diff_patch_exact base new : wfd base -> wfd new ->
  exists d, patch base (diff base new) = Some d /\
    (forall q, merged (look q (VDict base)) (look q (VDict new)) (look q (VDict d))) /\
    (vident (VDict d) (VDict new) <->
     forall q s t, look q (VDict base) = Some s -> look q (VDict new) = Some t -> is_scalar s = true -> is_scalar t = true ->
       scalar_eqb s t = true -> s = t).
Proof.
  intros Hb Hn. destruct (kept_gen base new Hb Hn) as (d & Hd & K). exists d. split; [exact Hd|].
  pose proof (kept_merged _ _ _ K Hn Hb) as M. cbn in M. split; [exact M|]. rewrite vident_places. split.
  - intros H q s t Es Et Ss St E. specialize (M q). specialize (H q). rewrite Es, Et in M. rewrite Et in H.
    destruct (look q (VDict d)) as [x|]; [|destruct t; contradiction].
    destruct t; try discriminate St; cbn [merged] in M; destruct M as [_ [(_ & _ & X)|(N & _)]]; try subst x; try (destruct N; auto; fail);
      destruct s; try discriminate Ss; exact H.
  - intros H q. specialize (M q). specialize (H q). destruct (look q (VDict new)) as [t|], (look q (VDict d)) as [x|]; cbn [place_same]; try exact I; try (destruct t; contradiction); try (destruct x; contradiction).
    assert (X : is_scalar t = true -> x = t).
    { intro St. destruct (look q (VDict base)) as [s|].
      - assert (Y : is_scalar s = true /\ scalar_eqb s t = true /\ x = s \/ ~ (is_scalar s = true /\ scalar_eqb s t = true) /\ x = t).
        { destruct t; try discriminate St; cbn [merged] in M; exact (proj2 M). }
        destruct Y as [(Ss & E & X)|(_ & X)]; subst x; [exact (H s t eq_refl eq_refl Ss St E)|reflexivity].
      - destruct t; try discriminate St; cbn [merged] in M; exact (proj2 M). }
    destruct t; try (rewrite X by reflexivity; reflexivity); cbn [merged] in M; destruct x; try exact I; destruct M; discriminate.
Qed.
