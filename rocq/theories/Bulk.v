(** The body of a bulk request: orjson's [dumps], [IndexOp.serialise] and [DeleteOp.serialise]
    (indexing/index.py:76-121), the body the client makes of the list of texts given to [client.bulk]
    (indexing/syncing.py:231-234), and how Elasticsearch reads it. *)
From Coq Require Import String Ascii.
From Coq Require Import List ZArith NArith Bool Lia.
From Coq Require Import Floats.SpecFloat.
From Coq Require Decimal DecimalN DecimalFacts.
From Verif Require Import PyVal Time TimeProofs Names Json.
Import ListNotations.
Local Open Scope string_scope.
Local Open Scope list_scope.
Local Open Scope nat_scope.

(** ** Model *)
(** indexing/syncing.py:230-232 *)
Fixpoint all_some {A} (l : list (option A)) : option (list A) :=
  match l with
  | [] => Some []
  | Some x :: r => match all_some r with Some s => Some (x :: s) | None => None end
  | None :: _ => None
  end.
(** items separated by commas, as orjson writes them (indexing/index.py:102-121) *)
Fixpoint commas (l : list pystr) : pystr := match l with [] => [] | [x] => x | x :: r => x ++ 44%N :: commas r end.
(** code points orjson rejects (indexing/index.py:102-121) *)
Definition surrogate (c : N) : bool := ((55296 <=? c) && (c <=? 57343))%N.
(** a digit of the escapes of orjson (indexing/index.py:102-121) *)
Definition hex_digit (n : N) : N := if (n <? 10)%N then (48 + n)%N else (87 + n)%N.
(** orjson's escapes: short ones for quote, backslash, \b, \t, \n, \f and \r, \u00xx for the other characters
    below 32, everything else as it is (indexing/index.py:105-109) *)
Definition escape (c : N) : pystr :=
  if N.eqb c 34 then [92; 34]%N else if N.eqb c 92 then [92; 92]%N
  else if N.eqb c 8 then [92; 98]%N else if N.eqb c 9 then [92; 116]%N else if N.eqb c 10 then [92; 110]%N
  else if N.eqb c 12 then [92; 102]%N else if N.eqb c 13 then [92; 114]%N
  else if (c <? 32)%N then [92; 117; 48; 48; hex_digit (c / 16); hex_digit (c mod 16)]%N
  else [c].
(** orjson.dumps of a str (indexing/index.py:102-121); [None]: it raises *)
Definition dumps_str (s : pystr) : option pystr := if existsb surrogate s then None else Some (34%N :: flat_map escape s ++ [34%N]).
Section Dumps.
(** [float_text]: the shortest decimal that reads as the float *)
Variable float_text : spec_float -> pystr.
(** indexing/index.py:105-109 *)
Definition int64 (z : Z) : bool := ((-9223372036854775808 <=? z) && (z <=? 18446744073709551615))%Z.
(** [orjson.dumps] on the values of documents. [None]: JSONEncodeError, for text with surrogates and integers
    beyond 64 bits (also raised beyond 254 levels of nesting, which is not modelled: MongoDB stores no more
    than 100). Nan and the infinities become null. Keys that are members of StrEnums are written as their text
    (OPT_NON_STR_KEYS, index.py:109). *)
Fixpoint dumps (v : value) : option pystr :=
  match v with
  | VNone => Some (lit "null")
  | VBool b => Some (if b then lit "true" else lit "false")
  | VInt z => if int64 z then Some (str_int z) else None
  | VFloat f => match f with S754_nan | S754_infinity _ => Some (lit "null") | _ => Some (float_text f) end
  | VStr s => dumps_str s
  | VList l => match all_some (map dumps l) with Some ts => Some (91%N :: commas ts ++ [93%N]) | None => None end
  | VDict d =>
      match all_some (map (fun kv => match dumps_str (fst kv), dumps (snd kv) with Some k, Some t => Some (k ++ 58%N :: t) | _, _ => None end) d) with
      | Some ts => Some (123%N :: commas ts ++ [125%N]) | None => None end
  end.
(** index.py:76-121: bulk operations *)
Inductive bulk_op := IndexOp (index : pystr) (doc_id : option pystr) (document : dict) | DeleteOp (index doc_id : pystr).
(** index.py:104-112, 120-122 [serialise] *)
Definition serialise (o : bulk_op) : option pystr :=
  match o with
  | IndexOp index doc_id document =>
      match dumps (VDict [(lit "index", VDict [(lit "_index", VStr index); (lit "_id", match doc_id with Some i => VStr i | None => VNone end)])]), dumps (VDict document) with
      | Some a, Some b => Some (a ++ 10%N :: b)
      | _, _ => None
      end
  | DeleteOp index doc_id => Some (serialise_delete index doc_id)
  end.
(** The client (elastic_transport's NdjsonSerializer) ends every text of the list with a newline. (indexing/syncing.py:230-232) *)
Definition line (s : pystr) : pystr := if N.eqb (last s 0%N) 10 then s else s ++ [10%N].
(** indexing/syncing.py:222-234: the body of a request *)
Definition bulk_body (ops : list bulk_op) : option pystr :=
  match all_some (map serialise ops) with Some ts => Some (concat (map line ts)) | None => None end.
End Dumps.

(** ** How Elasticsearch reads a bulk request *)
(** indexing/syncing.py:230-232 *)
Inductive action := AIndex (index : pystr) (id : option pystr) (source : json) | ADelete (index id : pystr).
(** The lines: what follows the last newline must be empty. (indexing/syncing.py:230-232) *)
Fixpoint lines (s : pystr) : option (list pystr) :=
  match s with
  | [] => Some []
  | c :: r =>
      if N.eqb c 10 then match lines r with Some ls => Some ([] :: ls) | None => None end
      else match lines r with Some (l :: ls) => Some ((c :: l) :: ls) | _ => None end
  end.
(** The index and id of an action. (indexing/syncing.py:230-232) *)
Definition read_meta (j : json) : option (pystr * option pystr) :=
  match j with
  | JObj [(a, JStr i); (b, x)] =>
      if str_eqb a (lit "_index") && str_eqb b (lit "_id") then match x with JStr d => Some (i, Some d) | JNull => Some (i, None) | _ => None end else None
  | _ => None
  end.
(** A line with an action, for index actions followed by a line with the document; empty lines are skipped. *)
Fixpoint read_lines (ls : list pystr) : option (list action) :=
  match ls with
  | [] => Some []
  | l :: rest =>
      match skip l with
      | [] => read_lines rest
      | _ =>
          match decode l with
          | Some (JObj [(k, m)]) =>
              match read_meta m with
              | None => None
              | Some (i, d) =>
                  if str_eqb k (lit "index") then
                    match rest with
                    | src :: rest' => match decode src, read_lines rest' with Some j, Some acts => Some (AIndex i d j :: acts) | _, _ => None end
                    | [] => None
                    end
                  else if str_eqb k (lit "delete") then
                    match d, read_lines rest with Some d, Some acts => Some (ADelete i d :: acts) | _, _ => None end
                  else None
              end
          | _ => None
          end
      end
  end.
(** the body as Elasticsearch reads it (indexing/syncing.py:230-232) *)
Definition read_body (s : pystr) : option (list action) := match lines s with Some ls => read_lines ls | None => None end.

(** ** Specification: the JSON a value stands for *)
Fixpoint json_of (float_text : spec_float -> pystr) (v : value) : json :=
  match v with
  | VNone => JNull
  | VBool b => JBool b
  | VInt z => JNum (str_int z)
  | VFloat f => match f with S754_nan | S754_infinity _ => JNull | _ => JNum (float_text f) end
  | VStr s => JStr s
  | VList l => JArr (map (json_of float_text) l)
  | VDict d => JObj (map (fun kv => (fst kv, json_of float_text (snd kv))) d)
  end.

(** ** Proofs *)
Lemma all_some_F2 {A B} (f : A -> option B) l : forall ts, all_some (map f l) = Some ts -> Forall2 (fun x t => f x = Some t) l ts.
Proof.
  induction l as [|x l IH]; intros ts H; cbn [map all_some] in H; [injection H as <-; constructor|]. destruct (f x) as [t|] eqn:E; [|discriminate]. destruct (all_some (map f l)) as [us|]; [|discriminate]. injection H as <-. constructor; [exact E|apply IH; reflexivity].
Qed.
Lemma hex_hex n : (n < 16)%N -> hex (hex_digit n) = Some n.
Proof.
  intro H. unfold hex_digit. destruct (N.ltb_spec n 10).
  - unfold hex. destruct (N.leb_spec 48 (48 + n)); [|lia]. destruct (N.leb_spec (48 + n) 57); [|lia]. cbn [andb]. f_equal. lia.
  - unfold hex. destruct (N.leb_spec 48 (87 + n)); [|lia]. destruct (N.leb_spec (87 + n) 57); [lia|]. cbn [andb]. destruct (N.leb_spec 97 (87 + n)); [|lia]. destruct (N.leb_spec (87 + n) 102); [|lia]. cbn [andb]. f_equal. lia.
Qed.
Lemma lex_escape c r : lex (escape c ++ r) = cons_fst c (lex r).
Proof.
  unfold escape.
  destruct (N.eqb_spec c 34) as [->|N1]; [reflexivity|]. destruct (N.eqb_spec c 92) as [->|N2]; [reflexivity|].
  destruct (N.eqb_spec c 8) as [->|N3]; [reflexivity|]. destruct (N.eqb_spec c 9) as [->|N4]; [reflexivity|]. destruct (N.eqb_spec c 10) as [->|N5]; [reflexivity|].
  destruct (N.eqb_spec c 12) as [->|N6]; [reflexivity|]. destruct (N.eqb_spec c 13) as [->|N7]; [reflexivity|].
  destruct (N.ltb_spec c 32) as [H|H].
  - assert (B1 : (c / 16 < 16)%N) by (apply N.div_lt_upper_bound; lia). assert (B2 : (c mod 16 < 16)%N) by (apply N.mod_lt; lia).
    assert (U : forall a b r', lex (92%N :: 117%N :: 48%N :: 48%N :: a :: b :: r') = match hex4 48 48 a b with Some x => cons_fst x (lex r') | None => None end) by reflexivity.
    cbn [app]. rewrite U. unfold hex4. change (hex 48) with (Some 0%N). rewrite (hex_hex _ B1), (hex_hex _ B2).
    f_equal. rewrite !N.mul_0_l, !N.add_0_l. rewrite N.mul_comm. symmetry. apply N.div_mod. lia.
  - cbn [app lex]. rewrite (proj2 (N.eqb_neq c 34) N1), (proj2 (N.eqb_neq c 92) N2). destruct (N.ltb_spec c 32); [lia|]. reflexivity.
Qed.
Lemma lex_dumps s : forall r, lex (flat_map escape s ++ 34%N :: r) = Some (s, r).
Proof. induction s as [|c s IH]; intro r; [reflexivity|]. cbn [flat_map]. rewrite <- app_assoc, lex_escape, IH. reflexivity. Qed.
(** no line breaks (specification, models no code) *)
Definition flat (s : pystr) : Prop := ~ In 10%N s.
Lemma flat_app a b : flat a -> flat b -> flat (a ++ b).
Proof. intros H K C. apply in_app_or in C. destruct C; auto. Qed.
Lemma flat_cons c a : c <> 10%N -> flat a -> flat (c :: a).
Proof. intros H K [E|C]; auto. Qed.
Lemma flat_escape c : flat (escape c).
Proof.
  unfold flat, escape. destruct (N.eqb c 34); [cbn; intuition discriminate|]. destruct (N.eqb c 92); [cbn; intuition discriminate|].
  destruct (N.eqb c 8); [cbn; intuition discriminate|]. destruct (N.eqb c 9); [cbn; intuition discriminate|]. destruct (N.eqb_spec c 10) as [|N10]; [cbn; intuition discriminate|].
  destruct (N.eqb c 12); [cbn; intuition discriminate|]. destruct (N.eqb c 13); [cbn; intuition discriminate|].
  assert (Hx : forall n, hex_digit n <> 10%N) by (intro n; unfold hex_digit; destruct (N.ltb_spec n 10); lia).
  destruct (c <? 32)%N; cbn [In]; [|intuition congruence]. pose proof (Hx (c / 16)%N). pose proof (Hx (c mod 16)%N). intros [E|[E|[E|[E|[E|[E|[]]]]]]]; try discriminate; auto.
Qed.
Lemma flat_dumps_str s t : dumps_str s = Some t -> flat t.
Proof.
  unfold dumps_str. destruct (existsb surrogate s); [discriminate|]. intro H. injection H as <-. apply flat_cons; [discriminate|]. apply flat_app; [|intros [E|[]]; discriminate].
  intro C. apply in_flat_map in C. destruct C as (c & _ & C). exact (flat_escape c C).
Qed.
Lemma digits_char u : forallb num_char (uint_chars u) = true.
Proof. induction u; cbn [uint_chars forallb]; auto. Qed.
Lemma digits_digit u : forallb is_digit (uint_chars u) = true.
Proof. induction u; cbn [uint_chars forallb]; auto. Qed.
Lemma span_all f s : forallb f s = true -> forall r, match r with c :: _ => f c = false | [] => True end -> span f (s ++ r) = (s, r).
Proof.
  induction s as [|c s IH]; intros H r Hr; [destruct r as [|c r]; [reflexivity|]; cbn [app span]; rewrite Hr; reflexivity|]. cbn [forallb] in H. apply andb_true_iff in H. destruct H as [H1 H2]. cbn [app span]. rewrite H1, (IH H2 r Hr). reflexivity.
Qed.
Lemma digits_ok n : num_ok (uint_chars (N.to_uint n)) = true.
Proof.
  pose proof (DecimalN.Unsigned.to_of (N.to_uint n)) as E. rewrite DecimalN.Unsigned.of_to in E.
  set (u := N.to_uint n) in *. clearbody u.
  assert (K : forall c r, is_digit c = true -> N.eqb c 48 = false -> forallb is_digit r = true -> num_ok (c :: r) = true).
  { intros c r H1 H2 H3. unfold num_ok. destruct (N.eqb_spec c 45) as [->|_]; [discriminate|]. rewrite H2, H1. cbn [andb].
    pose proof (span_all is_digit (c :: r)) as Sp. cbn [forallb] in Sp. rewrite H1, H3 in Sp. specialize (Sp eq_refl [] I). rewrite app_nil_r in Sp. rewrite Sp. reflexivity. }
  destruct u; try (cbn [uint_chars]; apply K; [reflexivity|reflexivity|apply digits_digit]).
  - discriminate E.
  - unfold Decimal.unorm in E. cbn [Decimal.nzhead] in E. destruct (Decimal.nzhead u) as [|u'|u'|u'|u'|u'|u'|u'|u'|u'|u'] eqn:Z; try discriminate E.
    + injection E as ->. reflexivity.
    + exfalso. exact (DecimalFacts.nzhead_nonzero u u' Z).
Qed.
Lemma int_ok z : num_ok (str_int z) = true /\ forallb num_char (str_int z) = true.
Proof.
  unfold str_int. destruct z as [|p|p]; [split; reflexivity| |].
  - split; [apply digits_ok|apply digits_char].
  - split; [|cbn [forallb]; apply digits_char]. unfold num_ok. cbn [N.eqb Pos.eqb]. pose proof (digits_ok (Npos p)) as H. pose proof (digits_digit (N.to_uint (Npos p))) as D. revert H D. generalize (uint_chars (N.to_uint (Npos p))). intros s H D.
    unfold num_ok in H. destruct s as [|c s]; [discriminate|]. cbn [forallb] in D. apply andb_true_iff in D. destruct D as [D _]. destruct (N.eqb_spec c 45) as [->|_]; [discriminate|]. exact H.
Qed.

(** specification: neither NaN nor infinite *)
Definition finite (f : spec_float) : bool := match f with S754_nan | S754_infinity _ => false | _ => true end.
Section Proofs.
Variable float_text : spec_float -> pystr.
(** the text of a finite float is a JSON number *)
Hypothesis FT : forall f, finite f = true -> num_ok (float_text f) = true /\ forallb num_char (float_text f) = true.
Notation dumps := (dumps float_text).
Notation json_of := (json_of float_text).
(** proof device: no number goes on here *)
Definition stops (r : pystr) : Prop := match r with c :: _ => num_char c = false | [] => True end.
(** proof device: the first character of a value *)
Definition opening (c : N) : Prop := c <> 32%N /\ c <> 9%N /\ c <> 10%N /\ c <> 13%N /\ c <> 93%N.
Lemma opening_skip c r : opening c -> skip (c :: r) = c :: r.
Proof. intros (A & B & C & D & _). cbn [skip]. rewrite (proj2 (N.eqb_neq c 32) A), (proj2 (N.eqb_neq c 9) B), (proj2 (N.eqb_neq c 10) C), (proj2 (N.eqb_neq c 13) D). reflexivity. Qed.
Lemma num_opening c : num_char c = true -> opening c.
Proof. intro H. unfold opening. repeat split; intros ->; discriminate H. Qed.
Lemma num_first t : num_ok t = true -> forallb num_char t = true -> exists c r, t = c :: r /\ num_char c = true.
Proof. intros A B. destruct t as [|c r]; [discriminate A|]. cbn [forallb] in B. apply andb_true_iff in B. exists c, r. split; [reflexivity|apply B]. Qed.
Lemma dumps_number v t : dumps v = Some t -> match v with VInt _ => True | VFloat f => finite f = true | _ => False end -> num_ok t = true /\ forallb num_char t = true /\ json_of v = JNum t.
Proof.
  destruct v as [|b|z|f|s|l|d]; intros H K; try contradiction; cbn [Bulk.dumps] in H.
  - destruct (int64 z); [|discriminate]. injection H as <-. destruct (int_ok z). auto.
  - destruct (FT f K) as [A B]. destruct f; try discriminate K; injection H as <-; auto.
Qed.
Lemma dumps_first v t : dumps v = Some t -> exists c r, t = c :: r /\ opening c.
Proof.
  assert (O : forall c r, opening c -> exists c' r', c :: r = c' :: r' /\ opening c') by eauto.
  assert (Nn : forall c, N.eqb c 32 || N.eqb c 9 || N.eqb c 10 || N.eqb c 13 || N.eqb c 93 = false -> opening c) by (intros c E; rewrite !orb_false_iff, !N.eqb_neq in E; unfold opening; tauto).
  destruct v as [|b|z|f|s|l|d]; intro H.
  - injection H as <-. apply O, Nn. reflexivity.
  - destruct b; injection H as <-; apply O, Nn; reflexivity.
  - destruct (dumps_number _ _ H I) as (A & B & _). destruct (num_first t A B) as (c & r & -> & C). apply O, num_opening, C.
  - destruct (finite f) eqn:Ef; [destruct (dumps_number _ _ H Ef) as (A & B & _); destruct (num_first t A B) as (c & r & -> & C); apply O, num_opening, C|].
    destruct f; try discriminate Ef; injection H as <-; apply O, Nn; reflexivity.
  - cbn [Bulk.dumps] in H. unfold dumps_str in H. destruct (existsb surrogate s); [discriminate|]. injection H as <-. apply O, Nn. reflexivity.
  - cbn [Bulk.dumps] in H. destruct (all_some _); [|discriminate]. injection H as <-. apply O, Nn. reflexivity.
  - cbn [Bulk.dumps] in H. destruct (all_some _); [|discriminate]. injection H as <-. apply O, Nn. reflexivity.
Qed.
Lemma value_num t r n : num_ok t = true -> forallb num_char t = true -> stops r -> value_at (S n) (t ++ r) = Some (JNum t, r).
Proof.
  intros A B Hr. destruct (num_first t A B) as (c & t' & E & C). pose proof (span_all num_char t B r Hr) as Sp. rewrite E in *. cbn [app] in *. cbn [value_at].
  destruct (N.eqb_spec c 34) as [->|_]; [discriminate C|]. destruct (N.eqb_spec c 123) as [->|_]; [discriminate C|]. destruct (N.eqb_spec c 91) as [->|_]; [discriminate C|]. rewrite C, Sp, A. reflexivity.
Qed.
Lemma commas_cons t ts : ts <> [] -> commas (t :: ts) = t ++ 44%N :: commas ts.
Proof. destruct ts; [contradiction|reflexivity]. Qed.
(** proof device: induction hypothesis *)
Definition reads (v : value) : Prop := forall t, dumps v = Some t -> forall n r, length t <= n -> stops r -> value_at n (t ++ r) = Some (json_of v, r).
Lemma elements_dumps l ts : Forall reads l -> Forall2 (fun x t => dumps x = Some t) l ts -> l <> [] ->
  forall n r, length (commas ts) + 1 <= n -> elements n (commas ts ++ 93%N :: r) = Some (map json_of l, r).
Proof.
  intros HR HF. induction HF as [|x t l ts E HF IH]; intros Nl n r L; [contradiction|]. inversion HR as [|? ? R1 R2]; subst.
  destruct n as [|n]; [lia|]. destruct l as [|y l].
  - inversion HF; subst. cbn [commas] in *. cbn [elements]. rewrite (R1 t E n (93%N :: r)) by (try reflexivity; lia). reflexivity.
  - assert (Nt : ts <> []) by (inversion HF; discriminate). rewrite (commas_cons t ts Nt) in *. rewrite app_length in L. cbn [length] in L. rewrite <- app_assoc. cbn [app]. cbn [elements].
    rewrite (R1 t E n (44%N :: commas ts ++ 93%N :: r)) by (try reflexivity; lia). assert (Sk : forall z, skip (44%N :: z) = 44%N :: z) by reflexivity. rewrite Sk. cbn [N.eqb Pos.eqb].
    assert (F : exists c u, commas ts = c :: u /\ opening c).
    { inversion HF as [|? t' ? ts' E' ? ]; subst. destruct (dumps_first _ _ E') as (c & u & -> & C). destruct ts'; [exists c, u|exists c; eexists]; (split; [reflexivity|exact C]). }
    destruct F as (c & u & F1 & F2). assert (Sk2 : skip (commas ts ++ 93%N :: r) = commas ts ++ 93%N :: r) by (rewrite F1; apply opening_skip, F2). rewrite Sk2.
    rewrite (IH R2 ltac:(discriminate) n r ltac:(lia)). reflexivity.
Qed.
Notation entry := (fun kv : pystr * value => match dumps_str (fst kv), dumps (snd kv) with Some k, Some t => Some (k ++ 58%N :: t) | _, _ => None end).
Lemma entry_inv kv t : entry kv = Some t -> exists u, dumps (snd kv) = Some u /\ t = 34%N :: flat_map escape (fst kv) ++ 34%N :: 58%N :: u.
Proof.
  unfold dumps_str. destruct (existsb surrogate (fst kv)); [discriminate|]. destruct (dumps (snd kv)) as [u|]; [|discriminate]. intro H. injection H as <-. exists u. split; [reflexivity|]. cbn [app]. rewrite <- app_assoc. reflexivity.
Qed.
Lemma members_dumps d ts : Forall (fun kv => reads (snd kv)) d -> Forall2 (fun x t => entry x = Some t) d ts -> d <> [] ->
  forall n r, length (commas ts) + 1 <= n -> members n (commas ts ++ 125%N :: r) = Some (map (fun kv => (fst kv, json_of (snd kv))) d, r).
Proof.
  intros HR HF. induction HF as [|[k x] t l ts E HF IH]; intros Nl n r L; [contradiction|]. inversion HR as [|? ? R1 R2]; subst. cbn [snd] in R1.
  destruct (entry_inv _ _ E) as (u & Eu & ->). cbn [fst snd] in *. assert (SkU : forall rest, skip (u ++ rest) = u ++ rest) by (intro rest; destruct (dumps_first _ _ Eu) as (c0 & u0 & E0 & O0); rewrite E0; apply opening_skip, O0).
  assert (M : forall n rest, length u <= n -> stops rest -> members (S n) (34%N :: flat_map escape k ++ 34%N :: 58%N :: u ++ rest) = finish_members n k (Some (json_of x, rest))).
  { intros m rest Lm Hs. cbn [members N.eqb Pos.eqb]. rewrite lex_dumps. assert (Sk : forall z, skip (58%N :: z) = 58%N :: z) by reflexivity. rewrite Sk. cbn [N.eqb Pos.eqb].
    rewrite SkU, (R1 u Eu m rest Lm Hs). reflexivity. }
  destruct n as [|n]; [lia|]. destruct l as [|y l].
  - inversion HF; subst. cbn [commas] in *. cbn [app]. rewrite <- app_assoc. cbn [app]. cbn [length] in L. rewrite app_length in L. cbn [length] in L. rewrite (M n (125%N :: r)) by (try reflexivity; lia). reflexivity.
  - assert (Nt : ts <> []) by (inversion HF; discriminate). rewrite (commas_cons _ ts Nt) in L. rewrite (commas_cons _ ts Nt). cbn [app length] in *. rewrite !app_length in L. cbn [length] in L.
    rewrite <- !app_assoc. cbn [app]. rewrite (M n (44%N :: commas ts ++ 125%N :: r)) by (try reflexivity; lia). unfold finish_members. assert (Sk : forall z, skip (44%N :: z) = 44%N :: z) by reflexivity. rewrite Sk. cbn [N.eqb Pos.eqb].
    assert (F : exists v, commas ts = 34%N :: v). { inversion HF as [|? t' ? ts' E' ? ]; subst. destruct (entry_inv _ _ E') as (w & _ & ->). destruct ts'; eexists; reflexivity. }
    destruct F as (v & F1). assert (Sk2 : skip (commas ts ++ 125%N :: r) = commas ts ++ 125%N :: r) by (rewrite F1; reflexivity). rewrite Sk2.
    rewrite (IH R2 ltac:(discriminate) n r ltac:(lia)). reflexivity.
Qed.
Lemma value_dumps v : reads v.
Proof.
  induction v as [|b|z|f|s|l IH|d IH] using value_ind'; intros t H n r L Hr.
  - injection H as <-. destruct n as [|n]; [cbn in L; lia|]. reflexivity.
  - destruct b; injection H as <-; (destruct n as [|n]; [cbn in L; lia|]); reflexivity.
  - destruct (dumps_number _ _ H I) as (A & B & C). rewrite C. destruct (num_first t A B) as (c & t' & E & _). destruct n as [|n]; [rewrite E in L; cbn in L; lia|]. apply value_num; assumption.
  - destruct (finite f) eqn:Ef.
    + destruct (dumps_number _ _ H Ef) as (A & B & C). rewrite C. destruct (num_first t A B) as (c & t' & E & _). destruct n as [|n]; [rewrite E in L; cbn in L; lia|]. apply value_num; assumption.
    + destruct f; try discriminate Ef; injection H as <-; (destruct n as [|n]; [cbn in L; lia|]); reflexivity.
  - cbn [Bulk.dumps] in H. unfold dumps_str in H. destruct (existsb surrogate s); [discriminate|]. injection H as <-. destruct n as [|n]; [cbn in L; lia|]. cbn [app]. rewrite <- app_assoc. cbn [app]. rewrite value_str, lex_dumps. reflexivity.
  - cbn [Bulk.dumps] in H. destruct (all_some (map dumps l)) as [ts|] eqn:E; [|discriminate]. injection H as <-. apply all_some_F2 in E. cbn [length] in L. rewrite app_length in L. cbn [length] in L. destruct n as [|n]; [lia|].
    cbn [app]. rewrite <- app_assoc. cbn [app]. destruct l as [|x l].
    + inversion E; subst. reflexivity.
    + assert (F : exists c u, commas ts = c :: u /\ opening c).
      { inversion E as [|? t' ? ts' E' ? ]; subst. destruct (dumps_first _ _ E') as (c & u & -> & C). destruct ts'; [exists c, u|exists c; eexists]; (split; [reflexivity|exact C]). }
      destruct F as (c & u & F1 & F2). pose proof (elements_dumps (x :: l) ts IH E ltac:(discriminate) n r ltac:(lia)) as K. cbn [value_at N.eqb Pos.eqb].
      assert (Sk : skip (commas ts ++ 93%N :: r) = c :: u ++ 93%N :: r) by (rewrite F1; apply opening_skip, F2). rewrite Sk. destruct (N.eqb_spec c 93) as [->|_]; [destruct F2 as (_ & _ & _ & _ & F2); contradiction|].
      rewrite F1 in K. cbn [app] in K. rewrite K. reflexivity.
  - cbn [Bulk.dumps] in H. destruct (all_some _) as [ts|] eqn:E; [|discriminate]. injection H as <-. apply (all_some_F2 entry) in E. cbn [length] in L. rewrite app_length in L. cbn [length] in L. destruct n as [|n]; [lia|].
    cbn [app]. rewrite <- app_assoc. cbn [app]. destruct d as [|x l].
    + inversion E; subst. reflexivity.
    + assert (F : exists v, commas ts = 34%N :: v). { inversion E as [|? t' ? ts' E' ? ]; subst. destruct (entry_inv _ _ E') as (w & _ & ->). destruct ts'; eexists; reflexivity. }
      destruct F as (v & F1). pose proof (members_dumps (x :: l) ts IH E ltac:(discriminate) n r ltac:(lia)) as K. rewrite F1 in *. cbn [app] in *. cbn [Bulk.json_of].
      change (value_at (S n) (123%N :: 34%N :: v ++ 125%N :: r)) with (to_obj (members n (34%N :: v ++ 125%N :: r))). rewrite K. reflexivity.
Qed.
(** what [dumps] writes reads as the value *)
Theorem decode_dumps v t : dumps v = Some t -> decode t = Some (json_of v).
Proof.
  intro H. unfold decode. destruct (dumps_first _ _ H) as (c & u & E & O). assert (Sk : skip t = t) by (rewrite E; apply opening_skip, O). rewrite Sk.
  pose proof (value_dumps v t H (S (S (length t))) [] ltac:(lia) I) as K. rewrite app_nil_r in K. rewrite K. reflexivity.
Qed.
Lemma flat_num t : forallb num_char t = true -> flat t.
Proof. intros H C. rewrite forallb_forall in H. specialize (H _ C). discriminate H. Qed.
Lemma flat_commas ts : Forall flat ts -> flat (commas ts).
Proof.
  induction 1 as [|t ts H HF IH]; [intros []|]. destruct ts; [exact H|]. rewrite commas_cons by discriminate. apply flat_app; [exact H|]. apply flat_cons; [discriminate|exact IH].
Qed.
Lemma flat_dumps v : forall t, dumps v = Some t -> flat t.
Proof.
  induction v as [|b|z|f|s|l IH|d IH] using value_ind'; intros t H.
  - injection H as <-. cbv. intuition discriminate.
  - destruct b; injection H as <-; cbv; intuition discriminate.
  - apply flat_num. apply (dumps_number _ _ H I).
  - destruct (finite f) eqn:Ef; [apply flat_num, (dumps_number _ _ H Ef)|]. destruct f; try discriminate Ef; injection H as <-; cbv; intuition discriminate.
  - exact (flat_dumps_str s t H).
  - cbn [Bulk.dumps] in H. destruct (all_some (map dumps l)) as [ts|] eqn:E; [|discriminate]. injection H as <-. apply all_some_F2 in E. apply flat_cons; [discriminate|]. apply flat_app; [|intros [K|[]]; discriminate]. apply flat_commas.
    induction E as [|x t l ts E _ IHl]; [constructor|]. inversion IH; subst. constructor; auto.
  - cbn [Bulk.dumps] in H. destruct (all_some _) as [ts|] eqn:E; [|discriminate]. injection H as <-. apply (all_some_F2 entry) in E. apply flat_cons; [discriminate|]. apply flat_app; [|intros [K|[]]; discriminate]. apply flat_commas.
    induction E as [|x t l ts E _ IHl]; [constructor|]. inversion IH; subst. constructor; [|auto]. destruct (dumps_str (fst x)) as [k|] eqn:Ek; [|discriminate]. destruct (dumps (snd x)) as [u|] eqn:Eu; [|discriminate]. injection E as <-.
    apply flat_app; [exact (flat_dumps_str _ _ Ek)|]. apply flat_cons; [discriminate|auto].
Qed.
Lemma dict_last d t : dumps (VDict d) = Some t -> exists u, t = u ++ [125%N].
Proof. cbn [Bulk.dumps]. destruct (all_some _) as [ts|]; [|discriminate]. intro H. injection H as <-. exists (123%N :: commas ts). reflexivity. Qed.
Lemma lines_app l rest ls : flat l -> lines rest = Some ls -> lines (l ++ 10%N :: rest) = Some (l :: ls).
Proof.
  intros F H. induction l as [|c l IH]; [cbn [app lines N.eqb Pos.eqb]; rewrite H; reflexivity|].
  cbn [app lines]. destruct (N.eqb_spec c 10) as [->|_]; [exfalso; apply F; left; reflexivity|]. rewrite IH by (intro C; apply F; right; exact C). reflexivity.
Qed.
(** specification: what an operation of indexing/index.py:94-121 asks for *)
Definition act_of (o : bulk_op) : action :=
  match o with IndexOp i d doc => AIndex i d (json_of (VDict doc)) | DeleteOp i d => ADelete i d end.
(** indexing/index.py:102-111: the line of an index action *)
Definition index_action (i : pystr) (d : option pystr) : json :=
  JObj [(lit "index", JObj [(lit "_index", JStr i); (lit "_id", match d with Some x => JStr x | None => JNull end)])].
Lemma read_index l src i d j ls acts : skip l <> [] -> decode l = Some (index_action i d) -> decode src = Some j -> read_lines ls = Some acts ->
  read_lines (l :: src :: ls) = Some (AIndex i d j :: acts).
Proof. intros H1 H2 H3 H4. cbn [read_lines]. destruct (skip l); [contradiction|]. rewrite H2. unfold index_action. cbn [read_meta]. change (str_eqb (lit "_index") (lit "_index") && str_eqb (lit "_id") (lit "_id")) with true. cbn iota. rewrite H3, H4. destruct d; reflexivity. Qed.
Lemma read_delete l i d ls acts : skip l <> [] -> decode l = Some (delete_action i d) -> read_lines ls = Some acts -> read_lines (l :: ls) = Some (ADelete i d :: acts).
Proof. intros H1 H2 H3. cbn [read_lines]. destruct (skip l); [contradiction|]. rewrite H2. unfold delete_action. cbn [read_meta]. change (str_eqb (lit "_index") (lit "_index") && str_eqb (lit "_id") (lit "_id")) with true. cbn iota. rewrite H3. reflexivity. Qed.
Lemma line_last u c : c <> 10%N -> line (u ++ [c]) = (u ++ [c]) ++ [10%N].
Proof. intro H. unfold line. rewrite last_last. rewrite (proj2 (N.eqb_neq c 10) H). reflexivity. Qed.
Theorem read_bulk ops : forall body,
  (forall i d, In (DeleteOp i d) ops -> flat (serialise_delete i d) /\ decode (serialise_delete i d) = Some (delete_action i d)) ->
  bulk_body float_text ops = Some body -> read_body body = Some (map act_of ops).
Proof.
  intros body HD H. unfold bulk_body in H. destruct (all_some (map (serialise float_text) ops)) as [ts|] eqn:E; [|discriminate]. injection H as <-. apply all_some_F2 in E.
  assert (G : exists ls, lines (concat (map line ts)) = Some ls /\ read_lines ls = Some (map act_of ops)).
  { induction E as [|o t ops ts E _ IH]; [exists []; split; reflexivity|]. destruct IH as (ls & L1 & L2); [intros i d K; apply HD; right; exact K|]. cbn [map concat]. destruct o as [i d doc|i d]; cbn [serialise] in E.
    - destruct (dumps (VDict [(lit "index", _)])) as [a|] eqn:Ea; [|discriminate]. destruct (dumps (VDict doc)) as [b|] eqn:Eb; [|discriminate]. injection E as <-.
      destruct (dict_last _ _ Eb) as (u & Eu). assert (El : line (a ++ 10%N :: b) = a ++ 10%N :: b ++ [10%N]).
      { rewrite Eu. change (a ++ 10%N :: u ++ [125%N]) with (a ++ (10%N :: u) ++ [125%N]). rewrite app_assoc, line_last by discriminate. rewrite <- !app_assoc. reflexivity. }
      exists (a :: b :: ls). rewrite El. split.
      + rewrite <- app_assoc. cbn [app]. apply lines_app; [exact (flat_dumps _ _ Ea)|]. rewrite <- app_assoc. cbn [app]. apply lines_app; [exact (flat_dumps _ _ Eb)|exact L1].
      + cbn [map act_of]. apply read_index; [|rewrite (decode_dumps _ _ Ea); destruct d; reflexivity|exact (decode_dumps _ _ Eb)|exact L2].
        destruct (dumps_first _ _ Ea) as (c & v & -> & O). rewrite opening_skip by exact O. discriminate.
    - injection E as <-. destruct (HD i d (or_introl eq_refl)) as [D1 D2]. exists (serialise_delete i d :: ls). split.
      + unfold serialise_delete in *. change (lit """}}") with (lit """}" ++ [125%N]). rewrite !app_assoc, line_last by discriminate. rewrite <- !app_assoc. rewrite !app_assoc. rewrite <- (app_assoc _ [10%N]). cbn [app]. apply lines_app; [|exact L1]. rewrite <- !app_assoc. exact D1.
      + cbn [map act_of]. apply read_delete; [discriminate|exact D2|exact L2]. }
  destruct G as (ls & G1 & G2). unfold read_body. rewrite G1. exact G2.
Qed.
End Proofs.
