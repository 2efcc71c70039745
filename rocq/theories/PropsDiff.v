(** Properties C01-C04: diff and patch. *)
From Coq Require Import List ZArith NArith Bool String.
From Coq Require Import Floats.SpecFloat.
From Verif Require Import PyVal PyEq Diff DiffProofs DiffExact HeapPatch.
Import ListNotations.

(** C01: patching [base] with [diff base new] succeeds and gives [new] ([py_same]: same shape and
    keys, scalars equal as Python compares them, NaN counted equal to itself). *)
Theorem C01_diff_patch_roundtrip : forall base new : dict, wfd base -> wfd new ->
  exists d, patch base (diff base new) = Some d /\ wfd d /\ py_same (VDict d) (VDict new).
Proof.
  intros base new Hb Hn. destruct (diff_patch_veq base new Hb Hn) as [d [H1 H2]].
  exists d. split; [exact H1|]. split; [|apply veq_same, H2].
  exact (wf_patch _ _ _ (wf_diff _ _ Hb Hn) Hb H1).
Qed.
Print Assumptions C01_diff_patch_roundtrip.

Definition ex_base : dict :=
  [(lit "x", VInt 4); (lit "l", VList [VInt 1; VDict [(lit "a", VStr (lit "q"))]; VNone]);
   (lit "gone", VBool true); (lit "n", VDict [(lit "deep", VList [])])].
Definition ex_new : dict :=
  [(lit "n", VDict [(lit "deep", VList [VFloat S754_nan])]); (lit "x", VInt 5);
   (lit "l", VList [VInt 1; VDict [(lit "a", VStr (lit "r"))]]); (lit "new", VList [VNone])].
Example C01_example : wfd ex_base /\ wfd ex_new /\
  Datatypes.length (diff ex_base ex_new) = 4 /\
  patch ex_base (diff ex_base ex_new) =
    Some [(lit "x", VInt 5); (lit "l", VList [VInt 1; VDict [(lit "a", VStr (lit "r"))]]);
          (lit "n", VDict [(lit "deep", VList [VFloat S754_nan])]); (lit "new", VList [VNone])].
Proof. vm_compute. repeat split. Qed.

(** C02: diff terminates, yields nothing exactly when the dicts compare equal, and never
    yields an empty operation. *)
Theorem C02_diff_empty_iff_equal : forall base new : dict, wfd base -> wfd new ->
  (exists ops, diff_loop (vsize (VDict base)) [CDict [] base new] = Some ops) /\
  (diff base new = [] <-> py_equal (VDict base) (VDict new)) /\
  Forall (fun o => ops_meaningful (dops o)) (diff base new).
Proof.
  intros base new Hb Hn. split; [exact (diff_loop_total base new)|].
  split; [rewrite <- (py_eqb_equal _ _ Hb Hn); exact (diff_nil_iff base new Hb Hn)|exact (diff_meaningful base new)].
Qed.
Print Assumptions C02_diff_empty_iff_equal.

(** ... and for NaN-free dicts "compare equal" is the specification equality. *)
Theorem C02_diff_empty_iff_same : forall base new : dict, wfd base -> wfd new ->
  nan_free (VDict base) = true ->
  (diff base new = [] <-> py_same (VDict base) (VDict new)).
Proof.
  intros base new Hb Hn Hnf. rewrite (diff_nil_iff base new Hb Hn), <- veq_same. split.
  - exact (py_eqb_veq _ _ Hb Hn).
  - exact (veq_py_eqb _ _ Hb Hn Hnf).
Qed.
Print Assumptions C02_diff_empty_iff_same.

Example C02_example : diff ex_base ex_base = [] /\ diff ex_base ex_new <> [] /\
  nan_free (VDict ex_base) = true.
Proof. vm_compute. repeat split; discriminate. Qed.
(** Equal numbers of different types are no difference, a number and its text are. *)
Definition ex_numbers : dict := [(lit "a", VBool false); (lit "b", VFloat (S754_finite true 3 (-1)%Z))].
Definition ex_numbers' : dict := [(lit "b", VFloat (S754_finite true 6 (-2)%Z)); (lit "a", VInt 0)].
Definition ex_text : dict := [(lit "b", VFloat (S754_finite true 6 (-2)%Z)); (lit "a", VStr (lit "0"))].
Example C02_example_numbers : diff ex_numbers ex_numbers' = [] /\ diff ex_numbers ex_text <> [].
Proof. vm_compute. split; [reflexivity|discriminate]. Qed.

(** On values of any kind: nothing is yielded exactly for equal values; different values raise unless both are dicts. *)
Theorem C02_diff_raises : forall base new, wf base -> wf new ->
  (diff_any base new = Some [] <-> py_equal base new) /\
  (diff_any base new = None <-> ~ py_equal base new /\ ~ exists b n, base = VDict b /\ new = VDict n).
Proof.
  intros base new Hb Hn. rewrite <- (py_eqb_equal base new Hb Hn). unfold diff_any. destruct (py_eqb base new) eqn:E.
  - split; [tauto|]. split; [discriminate|]. intros [H _]. destruct (H eq_refl).
  - assert (D : (exists b n, base = VDict b /\ new = VDict n) \/ ~ (exists b n, base = VDict b /\ new = VDict n)).
    { destruct base; try (right; intros (b' & n & ? & ?); discriminate). destruct new; try (right; intros (b' & n & ? & ?); discriminate). left. eauto. }
    destruct D as [(b & n & -> & ->)|D].
    + split; [|split; [discriminate|]].
      * split; [|discriminate]. intro H. injection H as H. rewrite (diff_nil_iff b n Hb Hn) in H. congruence.
      * intros [_ H]. destruct H. eauto.
    + assert (N : match base, new with VDict b, VDict n => Some (diff b n) | _, _ => None end = None) by (destruct base; try reflexivity; destruct new; try reflexivity; destruct D; eauto).
      rewrite N. split; [split; discriminate|]. split; [intros _; split; [discriminate|exact D]|reflexivity].
Qed.
Print Assumptions C02_diff_raises.
Example C02_example_raises : diff_any (VInt 1) (VDict []) = None /\ diff_any (VInt 1) (VBool true) = Some [].
Proof. vm_compute. auto. Qed.

(** C03: whatever the object graph and the operations, and whether it returns or raises,
    patch leaves every object that existed before the call unchanged. *)
Theorem C03_patch_no_mutation : forall h base os,
  extends h (fst (patch_h h base os)).
Proof. exact patch_h_frame. Qed.
Print Assumptions C03_patch_no_mutation.

(** ... and the object it returns is the patched value of the value level model used by all
    other theorems (it raises exactly when that model does), while [base] still denotes the
    same value. *)
Theorem C03_patch_h_refines_patch : forall h base b os hos,
  rep h (VDict b) (HR base) ->
  F2 (fun (o : diffop) (ho : path * hops) => dpath o = fst ho /\ rep_ops h (dops o) (snd ho)) os hos ->
  match patch b os with
  | Some d => exists h' r, patch_h h base hos = (h', Some r) /\ rep h' (VDict d) (HR r) /\
                rep h' (VDict b) (HR base)
  | None => match patch_loop (VDict b) os with
            | None => snd (patch_h h base hos) = None
            | Some v => exists h' r, patch_h h base hos = (h', Some r) /\ rep h' v (HR r)
            end
  end.
Proof.
  intros h base b os hos Hr Hos. pose proof (patch_h_spec h base b os hos Hr Hos) as H.
  unfold patch. destruct (patch_loop (VDict b) os) as [v|]; [|exact H].
  destruct H as [h' [r [H1 [H2 H3]]]].
  destruct v; try (exists h', r; split; assumption).
  exists h', r. split; [exact H1|]. split; [exact H2|]. exact (rep_mono h h' _ _ H3 Hr).
Qed.
Print Assumptions C03_patch_h_refines_patch.

(** One list object shared under two keys of the base; only the patched branch changes. *)
Definition ex_heap : heap :=
  [HL [HS (VInt 1); HS (VInt 2)]; HD [(lit "a", HR 0); (lit "b", HR 0)]].
Definition ex_hops : list (path * hops) :=
  [([PK (lit "a")], mkHops None None None (Some [(1, HS (VInt 9))]) None None)].
Example C03_example :
  rep ex_heap (VDict [(lit "a", VList [VInt 1; VInt 2]); (lit "b", VList [VInt 1; VInt 2])]) (HR 1) /\
  patch_h ex_heap 1 ex_hops =
    ([HL [HS (VInt 1); HS (VInt 2)]; HD [(lit "a", HR 0); (lit "b", HR 0)];
      HD [(lit "a", HR 3); (lit "b", HR 0)]; HL [HS (VInt 1); HS (VInt 9)]], Some 2).
Proof.
  split; [|vm_compute; reflexivity]. cbn.
  exists 1, [(lit "a", HR 0); (lit "b", HR 0)].
  split; [reflexivity|]. split; [reflexivity|].
  repeat split; exists 0, [HS (VInt 1); HS (VInt 2)]; repeat split.
Qed.

(** C04 is false: changing 1 to True is not recorded by diff. *)
Theorem C04_type_exact_roundtrip_refuted : exists base new : dict, wfd base /\ wfd new /\
  forall d, patch base (diff base new) = Some d -> ~ vident (VDict d) (VDict new).
Proof.
  exists [(lit "x", VInt 1)], [(lit "x", VBool true)].
  split; [reflexivity|]. split; [reflexivity|].
  intros d Hd H. vm_compute in Hd. inversion Hd; subst d.
  inversion H as [? ? Hs| |? ? Hk Hx]; [discriminate Hs|].
  specialize (Hx (lit "x") (VInt 1) (VBool true) eq_refl eq_refl).
  inversion Hx; discriminate.
Qed.
Print Assumptions C04_type_exact_roundtrip_refuted.

(** It holds whenever no scalar of [base] equals a scalar of another type in [new]. *)
Theorem C04_type_exact_roundtrip_partial : forall base new : dict, wfd base -> wfd new ->
  type_stable (VDict base) (VDict new) ->
  exists d, patch base (diff base new) = Some d /\ vident (VDict d) (VDict new).
Proof. exact diff_patch_vident. Qed.
Print Assumptions C04_type_exact_roundtrip_partial.

Example C04_example : type_stable (VDict [(lit "x", VInt 1)]) (VDict [(lit "x", VStr (lit "1")); (lit "y", VInt 1)]).
Proof.
  intros a b Ha Hb Sa Sb He.
  inversion Ha as [|? ? ?|? ? ? Hi Hs]; subst; [discriminate|].
  destruct Hi as [Hi|[]]. inversion Hi; subst. inversion Hs; subst.
  inversion Hb as [|? ? ?|? ? ? Hj Ht]; subst; [discriminate|].
  destruct Hj as [Hj|[Hj|[]]]; inversion Hj; subst; inversion Ht; subst; [discriminate|reflexivity].
Qed.

(** What it gives exactly, place by place ([look q v] follows the keys and indices [q] from [v]): the
    places and containers of [new], and at each scalar the scalar [base] has at that very place if the
    two compare equal, else the scalar of [new]. So it is [new] including types iff no scalar was
    replaced, at its place, by an equal one of another type. *)
Theorem C04_exact : forall base new : dict, wfd base -> wfd new ->
  exists d, patch base (diff base new) = Some d /\
    (forall q, match look q (VDict new) with
      | None => look q (VDict d) = None
      | Some (VDict _) => exists e, look q (VDict d) = Some (VDict e)
      | Some (VList _) => exists m, look q (VDict d) = Some (VList m)
      | Some t =>
          (forall s, look q (VDict base) = Some s -> py_equal s t -> look q (VDict d) = Some s) /\
          ((forall s, look q (VDict base) = Some s -> ~ py_equal s t) -> look q (VDict d) = Some t)
      end) /\
    (vident (VDict d) (VDict new) <->
     forall q s t, look q (VDict base) = Some s -> look q (VDict new) = Some t ->
       is_scalar t = true -> py_equal s t -> s = t).
Proof.
  intros base new Hb Hn. destruct (diff_patch_exact base new Hb Hn) as (d & Hd & M & V). exists d. split; [exact Hd|].
  assert (S : forall q s t, look q (VDict base) = Some s -> is_scalar t = true -> (py_equal s t <-> is_scalar s = true /\ scalar_eqb s t = true)).
  { intros q s t Es St. assert (Ws : wf s) by (exact (look_wf q _ _ Hb Es)). assert (Wt : wf t) by (destruct t; try discriminate St; exact eq_refl).
    rewrite <- (py_eqb_equal s t Ws Wt). destruct (is_scalar s) eqn:Ss.
    - rewrite py_eqb_scalar by assumption. tauto.
    - rewrite py_eqb_mixed by congruence. split; [discriminate|intros [H _]; discriminate H]. }
  split.
  - intro q. specialize (M q). destruct (look q (VDict new)) as [t|]; [|destruct (look q (VDict d)) as [[]|]; try contradiction; reflexivity].
    assert (X : is_scalar t = true -> (forall s, look q (VDict base) = Some s -> py_equal s t -> look q (VDict d) = Some s) /\
      ((forall s, look q (VDict base) = Some s -> ~ py_equal s t) -> look q (VDict d) = Some t)).
    { intro St. destruct (look q (VDict d)) as [x|]; [|destruct t; contradiction].
      assert (Y : match look q (VDict base) with
        | Some u => (is_scalar u = true /\ scalar_eqb u t = true /\ x = u) \/ (~ (is_scalar u = true /\ scalar_eqb u t = true) /\ x = t)
        | None => x = t end) by (destruct t; try discriminate St; exact (proj2 M)).
      split.
      - intros s Es E. rewrite Es in Y. apply (S q s t Es St) in E. destruct Y as [(_ & _ & Y)|(N & _)]; [congruence|contradiction].
      - intro N. destruct (look q (VDict base)) as [u|] eqn:Eu; [|congruence]. destruct Y as [(A & B & _)|(_ & Y)]; [|congruence].
        destruct (N u eq_refl). apply (S q u t Eu St). split; assumption. }
    destruct t; try (apply X; reflexivity); destruct (look q (VDict d)) as [[]|]; try contradiction; try (destruct M; discriminate); eauto.
  - rewrite V. split.
    + intros H q s t Es Et St E. apply (S q s t Es St) in E. destruct E as [Ss E]. exact (H q s t Es Et Ss St E).
    + intros H q s t Es Et Ss St E. apply (H q s t Es Et St). apply (S q s t Es St). split; assumption.
Qed.
Print Assumptions C04_exact.
Example C04_exact_example : let base : dict := [(lit "l", VList [VInt 1; VInt 0]); (lit "x", VBool true)] in
  let new : dict := [(lit "x", VInt 1); (lit "l", VList [VBool true; VFloat (S754_finite false 1 0)])] in
  patch base (diff base new) = Some [(lit "l", VList [VInt 1; VFloat (S754_finite false 1 0)]); (lit "x", VBool true)].
Proof. vm_compute. reflexivity. Qed.

