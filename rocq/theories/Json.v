(** JSON texts as Elasticsearch reads them (RFC 8259): the specification for the lines of bulk requests. *)
From Coq Require Import String Ascii.
From Coq Require Import List ZArith NArith Bool Lia.
From Verif Require Import PyVal Time Names.
Import ListNotations.
Open Scope string_scope.
Open Scope list_scope.
Open Scope nat_scope.

(** Objects keep all members in order; numbers keep their text. (indexing/syncing.py:230-232) *)
Inductive json := JNull | JBool (b : bool) | JNum (s : pystr) | JStr (s : pystr) | JArr (l : list json) | JObj (l : list (pystr * json)).

(** a hexadecimal digit (RFC 8259, as Elasticsearch reads the lines of indexing/index.py:102-121) *)
Definition hex (c : N) : option N :=
  if ((48 <=? c) && (c <=? 57))%N then Some (c - 48)%N
  else if ((97 <=? c) && (c <=? 102))%N then Some (c - 87)%N
  else if ((65 <=? c) && (c <=? 70))%N then Some (c - 55)%N else None.
(** four hexadecimal digits (RFC 8259, as Elasticsearch reads the lines of indexing/index.py:102-121) *)
Definition hex4 (a b c d : N) : option N :=
  match hex a, hex b, hex c, hex d with
  | Some w, Some x, Some y, Some z => Some (((w * 16 + x) * 16 + y) * 16 + z)%N | _, _, _, _ => None end.
(** the escapes of one character (RFC 8259, as Elasticsearch reads the lines of indexing/index.py:102-121) *)
Definition esc (c : N) : option N :=
  if N.eqb c 34 then Some 34%N else if N.eqb c 92 then Some 92%N else if N.eqb c 47 then Some 47%N
  else if N.eqb c 98 then Some 8%N else if N.eqb c 102 then Some 12%N else if N.eqb c 110 then Some 10%N
  else if N.eqb c 114 then Some 13%N else if N.eqb c 116 then Some 9%N else None.
(** helper of [string_rest] (RFC 8259, as Elasticsearch reads the lines of indexing/index.py:102-121) *)
Definition cons_fst (c : N) (x : option (pystr * pystr)) : option (pystr * pystr) := match x with Some (s, r) => Some (c :: s, r) | None => None end.
(** The rest of a string after the opening quote: its contents and what follows the closing quote. Escaped
    surrogates are not combined into pairs. (indexing/syncing.py:230-232) *)
Fixpoint lex (s : pystr) : option (pystr * pystr) :=
  match s with
  | [] => None
  | c :: r =>
      if N.eqb c 34 then Some ([], r)
      else if (c <? 32)%N then None
      else if N.eqb c 92 then
        match r with
        | [] => None
        | e :: r1 =>
            if N.eqb e 117 then
              match r1 with
              | h1 :: h2 :: h3 :: h4 :: r2 => match hex4 h1 h2 h3 h4 with Some x => cons_fst x (lex r2) | None => None end
              | _ => None
              end
            else match esc e with Some x => cons_fst x (lex r1) | None => None end
        end
      else cons_fst c (lex r)
  end.
(** white space (RFC 8259, as Elasticsearch reads the lines of indexing/index.py:102-121) *)
Fixpoint skip (s : pystr) : pystr := match s with c :: r => if N.eqb c 32 || N.eqb c 9 || N.eqb c 10 || N.eqb c 13 then skip r else s | [] => [] end.
(** Numbers: the longest run of their characters, which must be of the form
    [-]int[.digits][(e|E)[+|-]digits]. (indexing/syncing.py:230-232) *)
Definition num_char (c : N) : bool := is_digit c || N.eqb c 43 || N.eqb c 45 || N.eqb c 46 || N.eqb c 69 || N.eqb c 101.
(** the longest run of characters of a kind (RFC 8259, as Elasticsearch reads the lines of indexing/index.py:102-121) *)
Fixpoint span (f : N -> bool) (s : pystr) : pystr * pystr :=
  match s with c :: r => if f c then let (a, b) := span f r in (c :: a, b) else ([], s) | [] => ([], []) end.
(** the exponent of a number (RFC 8259, as Elasticsearch reads the lines of indexing/index.py:102-121) *)
Definition num_exp (s : pystr) : bool :=
  match s with
  | [] => true
  | c :: r => (N.eqb c 69 || N.eqb c 101) &&
      let r := match r with d :: r' => if N.eqb d 43 || N.eqb d 45 then r' else r | [] => [] end in
      match r with [] => false | _ => forallb is_digit r end
  end.
(** the fraction of a number (RFC 8259, as Elasticsearch reads the lines of indexing/index.py:102-121) *)
Definition num_frac (s : pystr) : bool :=
  match s with
  | c :: r => if N.eqb c 46 then let (a, b) := span is_digit r in match a with [] => false | _ => num_exp b end else num_exp s
  | [] => true
  end.
(** the form of a number (RFC 8259, as Elasticsearch reads the lines of indexing/index.py:102-121) *)
Definition num_ok (s : pystr) : bool :=
  let s := match s with c :: r => if N.eqb c 45 then r else s | [] => [] end in
  match s with
  | [] => false
  | c :: r => if N.eqb c 48 then num_frac r else is_digit c && num_frac (snd (span is_digit s))
  end.
(** true, false and null (RFC 8259, as Elasticsearch reads the lines of indexing/index.py:102-121) *)
Definition keyword (s : pystr) : option (json * pystr) :=
  match s with
  | 116 :: 114 :: 117 :: 101 :: r => Some (JBool true, r)
  | 102 :: 97 :: 108 :: 115 :: 101 :: r => Some (JBool false, r)
  | 110 :: 117 :: 108 :: 108 :: r => Some (JNull, r)
  | _ => None
  end%N.
(** A value at the start of the text (without leading white space), the rest of the text after it; the
    members of an object after its opening bracket; the elements of an array. Every call consumes at least one
    character, so that the length of the text is enough fuel. (indexing/syncing.py:230-232) *)
Fixpoint value_at (n : nat) (s : pystr) : option (json * pystr) :=
  match n with O => None | S n =>
    match s with
    | [] => None
    | c :: r =>
        if N.eqb c 34 then match lex r with Some (x, r') => Some (JStr x, r') | None => None end
        else if N.eqb c 123 then
          match skip r with
          | [] => None
          | d :: r' => if N.eqb d 125 then Some (JObj [], r') else match members n (d :: r') with Some (l, r'') => Some (JObj l, r'') | None => None end
          end
        else if N.eqb c 91 then
          match skip r with
          | [] => None
          | d :: r' => if N.eqb d 93 then Some (JArr [], r') else match elements n (d :: r') with Some (l, r'') => Some (JArr l, r'') | None => None end
          end
        else if num_char c then let (a, b) := span num_char s in if num_ok a then Some (JNum a, b) else None
        else keyword s
    end
  end
with members (n : nat) (s : pystr) : option (list (pystr * json) * pystr) :=
  match n with O => None | S n =>
    match s with
    | [] => None
    | c :: r =>
        if N.eqb c 34 then
          match lex r with
          | None => None
          | Some (k, r1) =>
              match skip r1 with
              | [] => None
              | d :: r2 =>
                  if N.eqb d 58 then
                    match value_at n (skip r2) with
                    | None => None
                    | Some (v, r3) =>
                        match skip r3 with
                        | [] => None
                        | e :: r4 =>
                            if N.eqb e 125 then Some ([(k, v)], r4)
                            else if N.eqb e 44 then match members n (skip r4) with Some (l, r5) => Some ((k, v) :: l, r5) | None => None end
                            else None
                        end
                    end
                  else None
              end
          end
        else None
    end
  end
with elements (n : nat) (s : pystr) : option (list json * pystr) :=
  match n with O => None | S n =>
    match value_at n s with
    | None => None
    | Some (v, r1) =>
        match skip r1 with
        | [] => None
        | e :: r2 =>
            if N.eqb e 93 then Some ([v], r2)
            else if N.eqb e 44 then match elements n (skip r2) with Some (l, r3) => Some (v :: l, r3) | None => None end
            else None
        end
    end
  end.
(** a whole text (RFC 8259, as Elasticsearch reads the lines of indexing/index.py:102-121) *)
Definition decode (s : pystr) : option json :=
  match value_at (S (S (length s))) (skip s) with
  | Some (j, r) => match skip r with [] => Some j | _ => None end
  | None => None
  end.

(** ** Strings *)
(** specification, models no code *)
Definition plain_char (c : N) : bool := (32 <=? c)%N && negb (N.eqb c 34) && negb (N.eqb c 92).
Lemma lex_plain s : forallb plain_char s = true -> forall r, lex (s ++ 34%N :: r) = Some (s, r).
Proof.
  induction s as [|c s IH]; intros H r; [reflexivity|]. cbn [forallb] in H. apply andb_true_iff in H. destruct H as [H1 H2]. unfold plain_char in H1. rewrite !andb_true_iff, !negb_true_iff in H1. destruct H1 as [[H1 H3] H4].
  cbn [app lex]. rewrite H3, H4. apply N.leb_le in H1. destruct (N.ltb_spec c 32); [lia|]. rewrite IH by exact H2. reflexivity.
Qed.
(** the text consumed: no shorter than the contents, and equal to them if of the same length; quotes in it are
    behind a backslash; a comma at its end ends the contents *)
Lemma lex_inv n : forall s x r, length s <= n -> lex s = Some (x, r) ->
  exists u, s = u ++ 34%N :: r /\ length x <= length u /\ (length x = length u -> x = u /\ forallb plain_char u = true)
    /\ (forall a b, u = a ++ 34%N :: b -> exists a', a = a' ++ [92%N])
    /\ (forall a, u = a ++ [44%N] -> exists y, x = y ++ [44%N]).
Proof.
  induction n as [|n IH]; intros s x r L E.
  - destruct s; [discriminate|cbn in L; lia].
  - destruct s as [|c s]; [discriminate|]. cbn [length] in L. cbn [lex] in E.
    destruct (N.eqb_spec c 34) as [->|N34].
    { injection E as <- <-. exists []. repeat split; try (cbn; lia); intros a; intros; destruct a; discriminate. }
    destruct (N.ltb_spec c 32) as [|G32]; [discriminate|]. destruct (N.eqb_spec c 92) as [->|N92].
    + destruct s as [|e s]; [discriminate|]. cbn [length] in L.
      assert (K : forall v p, (e :: s = v ++ p /\ 1 <= length v /\ (forall a b, v = a ++ 34%N :: b -> a = []) /\ (forall a, v <> a ++ [44%N])) ->
                 forall z, cons_fst z (lex p) = Some (x, r) -> length p <= n ->
        exists u, 92%N :: e :: s = u ++ 34%N :: r /\ length x <= length u /\ (length x = length u -> x = u /\ forallb plain_char u = true)
          /\ (forall a b, u = a ++ 34%N :: b -> exists a', a = a' ++ [92%N]) /\ (forall a, u = a ++ [44%N] -> exists y, x = y ++ [44%N])).
      { intros v p (Ev & Lv & Q & C) z Ez Lp. destruct (lex p) as [[y r']|] eqn:Ep; [|discriminate]. cbn [cons_fst] in Ez. injection Ez as <- <-.
        destruct (IH p y r' Lp Ep) as (u & -> & H1 & H2 & H3 & H4). exists (92%N :: v ++ u). split; [rewrite Ev; cbn [app]; rewrite <- app_assoc; reflexivity|].
        split; [cbn [length]; rewrite app_length; lia|]. split; [cbn [length]; rewrite app_length; lia|]. split.
        - intros a b Ea. destruct a as [|a0 a]; [discriminate|]. cbn [app] in Ea. injection Ea as <- Ea. apply app_eq_app in Ea. destruct Ea as [w [[-> Ea]|[-> Ea]]].
          + destruct w as [|w0 w]; cbn [app] in Ea.
            * destruct (H3 [] b (eq_sym Ea)) as [a' Ha]. destruct a'; discriminate.
            * injection Ea as <- ->. rewrite (Q a w eq_refl). exists []. reflexivity.
          + destruct (H3 w b Ea) as [a' ->]. exists (92%N :: v ++ a'). cbn [app]. rewrite <- app_assoc. reflexivity.
        - intros a Ea. destruct u as [|u0 u _] using rev_ind.
          + exfalso. rewrite app_nil_r in Ea. destruct a as [|a0 a]; [discriminate|]. cbn [app] in Ea. injection Ea as _ Ea. exact (C a Ea).
          + rewrite app_assoc, app_comm_cons in Ea. apply app_inj_tail in Ea. destruct Ea as [_ ->]. destruct (H4 u eq_refl) as [y' ->]. exists (z :: y'). reflexivity. }
      destruct (N.eqb_spec e 117) as [->|N117].
      * destruct s as [|h1 [|h2 [|h3 [|h4 s]]]]; try discriminate. destruct (hex4 h1 h2 h3 h4) as [z|] eqn:Eh; [|discriminate].
        assert (Hx : forall h, hex h <> None -> h <> 34%N /\ h <> 44%N) by (intros h Hh; split; intros ->; apply Hh; reflexivity).
        assert (H4 : ((h1 <> 34 /\ h1 <> 44) /\ (h2 <> 34 /\ h2 <> 44) /\ (h3 <> 34 /\ h3 <> 44) /\ (h4 <> 34 /\ h4 <> 44))%N).
        { unfold hex4 in Eh. repeat split; intros ->; cbn [hex N.leb N.compare Pos.compare Pos.compare_cont andb] in Eh; try discriminate Eh; destruct (hex h1); try discriminate Eh; try destruct (hex h2); try discriminate Eh; try destruct (hex h3); discriminate Eh. }
        apply (K [117%N; h1; h2; h3; h4] s) with (z := z); [|exact E|cbn [length] in L; lia].
        split; [reflexivity|]. split; [cbn; lia|]. split.
        -- intros a b Ea. exfalso. assert (Hin : In 34%N [117%N; h1; h2; h3; h4]) by (rewrite Ea; apply in_or_app; right; left; reflexivity). cbn [In] in Hin. intuition congruence.
        -- intros a Ea. assert (Hin : In 44%N [117%N; h1; h2; h3; h4]) by (rewrite Ea; apply in_or_app; right; left; reflexivity). cbn [In] in Hin. intuition congruence.
      * destruct (esc e) as [z|] eqn:Ee; [|discriminate].
        apply (K [e] s) with (z := z); [|exact E|lia]. split; [reflexivity|]. split; [cbn; lia|]. split.
        -- intros a b Ea. destruct a as [|a0 [|a1 a]]; [reflexivity|discriminate|discriminate].
        -- intros a Ea. destruct a as [|a0 [|a1 a]]; [|discriminate|discriminate]. injection Ea as ->. discriminate.
    + destruct (lex s) as [[y r']|] eqn:Ep; [|discriminate]. cbn [cons_fst] in E. injection E as <- <-. destruct (IH s y r' ltac:(lia) Ep) as (u & -> & H1 & H2 & H3 & H4).
      exists (c :: u). split; [reflexivity|]. split; [cbn [length]; lia|]. split.
      * intro El. cbn [length] in El. destruct H2 as [-> H2]; [lia|]. split; [reflexivity|]. cbn [forallb]. rewrite H2, andb_true_r. unfold plain_char. rewrite !andb_true_iff, !negb_true_iff, N.leb_le, !N.eqb_neq. auto.
      * split.
        -- intros a b Ea. destruct a as [|a0 a]; [injection Ea as -> _; contradiction|]. injection Ea as <- Ea. destruct (H3 a b Ea) as [a' ->]. exists (c :: a'). reflexivity.
        -- intros a Ea. destruct u as [|u0 u _] using rev_ind.
           ++ destruct a as [|a0 [|a1 a]]; [|discriminate|discriminate]. injection Ea as ->. destruct y; [exists []; reflexivity|cbn in H1; lia].
           ++ rewrite app_comm_cons in Ea. apply app_inj_tail in Ea. destruct Ea as [_ ->]. destruct (H4 u eq_refl) as [y' ->]. exists (c :: y'). reflexivity.
Qed.
(** contents that are the text itself have no special characters *)
Lemma lex_exact s w r : lex (s ++ 34%N :: w) = Some (s, r) -> ~ In 34%N w \/ (exists w', w = 44%N :: 34%N :: w') -> forallb plain_char s = true /\ r = w.
Proof.
  intros E W. destruct (lex_inv _ _ _ _ (le_n _) E) as (u & Eu & H1 & H2 & H3 & H4).
  assert (F : length u = length s -> forallb plain_char s = true /\ r = w).
  { intro L. symmetry in L. destruct (H2 L) as [<- P]. split; [exact P|]. apply app_inv_head in Eu. congruence. }
  apply app_eq_app in Eu. destruct Eu as [v [[Es Eu]|[Es Eu]]].
  - rewrite Es, app_length in H1. destruct v; [apply F; rewrite Es, app_nil_r; reflexivity|cbn in H1; lia].
  - destruct v as [|v0 v]; [apply F; rewrite Es, app_nil_r; reflexivity|]. exfalso. cbn [app] in Eu. injection Eu as <- Eu. destruct W as [W|(w' & ->)].
    + apply W. rewrite Eu. apply in_or_app. right. left. reflexivity.
    + destruct v as [|v0 [|v1 v]]; cbn [app] in Eu; [discriminate| |].
      * injection Eu as <- _. destruct (H3 s [44%N] Es) as [a Ha]. destruct (H4 (s ++ [34%N])) as [y Hy]; [rewrite <- app_assoc; exact Es|]. rewrite Ha in Hy. apply app_inj_tail in Hy. destruct Hy as [_ D]. discriminate D.
      * injection Eu as <- <- _. destruct (H3 (s ++ [34%N; 44%N]) v) as [a Ha]; [rewrite <- app_assoc; exact Es|]. change [34%N; 44%N] with ([34%N] ++ [44%N]) in Ha. rewrite app_assoc in Ha. apply app_inj_tail in Ha. destruct Ha as [_ D]. discriminate D.
Qed.

(** ** The action of a delete *)
(** specification, models no code *)
Definition delete_action (index doc_id : pystr) : json := JObj [(lit "delete", JObj [(lit "_index", JStr index); (lit "_id", JStr doc_id)])].
(** proof device: a step of the reader above *)
Definition finish_members (n : nat) (k : pystr) (x : option (json * pystr)) : option (list (pystr * json) * pystr) :=
  match x with
  | None => None
  | Some (v, r3) =>
      match skip r3 with
      | [] => None
      | e :: r4 =>
          if N.eqb e 125 then Some ([(k, v)], r4)
          else if N.eqb e 44 then match members n (skip r4) with Some (l, r5) => Some ((k, v) :: l, r5) | None => None end
          else None
      end
  end.
(** proof device: a step of the reader above *)
Definition to_obj (x : option (list (pystr * json) * pystr)) : option (json * pystr) := match x with Some (l, r) => Some (JObj l, r) | None => None end.
(** proof device: a step of the reader above *)
Definition to_str (x : option (pystr * pystr)) : option (json * pystr) := match x with Some (l, r) => Some (JStr l, r) | None => None end.
(** proof device: a step of the reader above *)
Definition finish (x : option (json * pystr)) : option json := match x with Some (j, r) => match skip r with [] => Some j | _ => None end | None => None end.
Lemma value_obj n r : value_at (S n) (123%N :: 34%N :: r) = to_obj (members n (34%N :: r)).
Proof. reflexivity. Qed.
Lemma value_str n r : value_at (S n) (34%N :: r) = to_str (lex r).
Proof. reflexivity. Qed.
Lemma members_plain n k c r : forallb plain_char k = true -> skip (c :: r) = c :: r -> members (S n) (34%N :: k ++ 34%N :: 58%N :: c :: r) = finish_members n k (value_at n (c :: r)).
Proof. intros H E. cbn [members N.eqb Pos.eqb]. rewrite lex_plain by exact H. assert (Sk : forall x, skip (58%N :: x) = 58%N :: x) by reflexivity. rewrite Sk. cbn [N.eqb Pos.eqb]. rewrite E. reflexivity. Qed.
Lemma decode_delete i d : exists n,
  decode (serialise_delete i d) = finish (to_obj (finish_members (S (S (S (S (S n))))) (lit "delete") (to_obj (finish_members (S (S (S n))) (lit "_index")
     (to_str (lex (i ++ 34%N :: 44%N :: 34%N :: lit "_id" ++ 34%N :: 58%N :: 34%N :: d ++ lit """}}"))))))).
Proof.
  set (t := i ++ 34%N :: 44%N :: 34%N :: lit "_id" ++ 34%N :: 58%N :: 34%N :: d ++ lit """}}").
  assert (E : serialise_delete i d = 123%N :: 34%N :: lit "delete" ++ 34%N :: 58%N :: 123%N :: 34%N :: lit "_index" ++ 34%N :: 58%N :: 34%N :: t) by reflexivity.
  rewrite E. unfold decode. cbn [length]. rewrite app_length. cbn [length]. rewrite app_length. cbn [length].
  change (length (lit "delete")) with 6. change (length (lit "_index")) with 6. cbn [Nat.add].
  assert (Sk : forall x, skip (123%N :: 34%N :: x) = 123%N :: 34%N :: x) by reflexivity. rewrite Sk.
  rewrite value_obj, members_plain by reflexivity. rewrite value_obj, members_plain by reflexivity. rewrite value_str.
  exists (16 + length t). cbn [Nat.add]. reflexivity.
Qed.
Lemma decode_id n d : members (S (S n)) (34%N :: lit "_id" ++ 34%N :: 58%N :: 34%N :: d ++ lit """}}") = finish_members (S n) (lit "_id") (to_str (lex (d ++ 34%N :: lit "}}"))).
Proof. rewrite members_plain by reflexivity. rewrite value_str. reflexivity. Qed.
