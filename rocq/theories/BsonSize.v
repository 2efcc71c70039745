(** How many bytes documents take in MongoDB, and the limit on them. *)
From Coq Require Import String Ascii.
From Coq Require Import List ZArith NArith Bool Lia.
From Verif Require Import PyVal Diff Time Prepare Mongo Store MongoStore ParserTypes Bson.
Import ListNotations.
Local Open Scope string_scope.
Local Open Scope list_scope.
Local Open Scope N_scope.

(** The encoding of BSON, with which pymongo writes what ingest.py:89-95, 113, 128, 160-172, 224-236 and manager.py:277-280 give it. *)
(** UTF-8 (manager.py:328) *)
Definition char_size (c : N) : N := if c <? 128 then 1 else if c <? 2048 then 2 else if c <? 65536 then 3 else 4.
(** the bytes of a text in UTF-8 (encoded by pymongo, manager.py:328) *)
Definition text_size (s : pystr) : N := fold_right (fun c n => char_size c + n) 0 s.
(** pymongo writes integers of 32 bits as such, others with 64 bits (manager.py:328) *)
Definition int_size (z : Z) : N := if ((- 2 ^ 31 <=? z) && (z <? 2 ^ 31))%Z then 4 else 8.
(** An element of a document: a byte for the type, the name and the byte 0, and the value. *)
Definition element_size (name : pystr) (value : N) : N := 2 + text_size name + value.
(** An array is a document with the names "0", "1", ... A document has 4 bytes for its size and the byte 0; text the same around it. *)
Fixpoint bson_size (v : value) : N :=
  match v with
  | VNone => 0
  | VBool _ => 1
  | VInt z => int_size z
  | VFloat _ => 8
  | VStr s => 5 + text_size s
  | VList l => 5 + (fix items (i : N) (l : list value) : N := match l with [] => 0 | x :: r => element_size (str_int (Z.of_N i)) (bson_size x) + items (i + 1) r end) 0 l
  | VDict d => 5 + (fix fields (d : dict) : N := match d with [] => 0 | (k, x) :: r => element_size k (bson_size x) + fields r end) d
  end.
(** the bytes of the elements of an array (manager.py:328) *)
Fixpoint items_size (i : N) (l : list value) : N := match l with [] => 0 | x :: r => element_size (str_int (Z.of_N i)) (bson_size x) + items_size (i + 1) r end.
(** the bytes of the entries of a document (manager.py:328) *)
Fixpoint fields_size (d : dict) : N := match d with [] => 0 | (k, x) :: r => element_size k (bson_size x) + fields_size r end.

(** The limit of MongoDB on the size of a document, 16 MiB by its documentation. pymongo checks it for documents that are inserted, the server for
    those that result from an update (an update itself may be 16 KiB larger, which is more than it has besides what ends up in the document). *)
Definition SIZE_LIMIT : N := 16777216.
(** what the "_id" of MongoDB, an ObjectId, takes in each document *)
Definition id_size : N := 17.
(** the bytes of a stored document (manager.py:328) *)
Definition document_size (doc : dict) : N := id_size + bson_size (VDict doc).
(** what MongoDB accepts (manager.py:328) *)
Definition within (limit : N) (doc : dict) : bool := document_size doc <=? limit.

Lemma list_size l : bson_size (VList l) = 5 + items_size 0 l.
Proof. reflexivity. Qed.
Lemma dict_size d : bson_size (VDict d) = 5 + fields_size d.
Proof. reflexivity. Qed.
Lemma fields_app d e : fields_size (d ++ e) = fields_size d + fields_size e.
Proof. induction d as [|[k x] d IH]; [reflexivity|]. cbn [app fields_size]. rewrite IH. lia. Qed.
Lemma text_app s t : text_size (s ++ t) = text_size s + text_size t.
Proof. induction s as [|c s IH]; [reflexivity|]. cbn [app text_size fold_right]. fold (text_size (s ++ t)) (text_size s). rewrite IH. lia. Qed.
Lemma char_pos c : 1 <= char_size c.
Proof. unfold char_size. destruct (c <? 128), (c <? 2048), (c <? 65536); lia. Qed.
Lemma text_repeat n : text_size (repeat 97 n) = N.of_nat n.
Proof. induction n as [|n IH]; [reflexivity|]. cbn [repeat text_size fold_right]. fold (text_size (repeat 97 n)). rewrite IH. change (char_size 97) with 1. lia. Qed.
Lemma text_length s : N.of_nat (List.length s) <= text_size s.
Proof. induction s as [|c s IH]; [cbn; lia|]. cbn [List.length text_size fold_right]. fold (text_size s). pose proof (char_pos c). lia. Qed.
Lemma int_size_le z : int_size z <= 8.
Proof. unfold int_size. destruct (_ && _)%bool; lia. Qed.

(** ** The digits of numbers *)
Lemma uint_chars_size u : text_size (uint_chars u) = N.of_nat (Decimal.nb_digits u).
Proof. induction u; [reflexivity|..]; cbn [uint_chars text_size fold_right Decimal.nb_digits]; fold (text_size (uint_chars u)); rewrite IHu; match goal with |- char_size ?c + _ = _ => change (char_size c) with 1 end; lia. Qed.
Lemma of_uint_acc_ge u : forall a, N.pos a * 10 ^ N.of_nat (Decimal.nb_digits u) <= N.pos (Pos.of_uint_acc u a).
Proof.
  induction u as [|u IH|u IH|u IH|u IH|u IH|u IH|u IH|u IH|u IH|u IH]; intro a; cbn [Decimal.nb_digits Pos.of_uint_acc]; [cbn; lia|..]; rewrite Nat2N.inj_succ, N.pow_succ_r';
    match goal with |- (_ <= N.pos (Pos.of_uint_acc u ?b)) => eapply N.le_trans; [|exact (IH b)] end; rewrite N.mul_assoc; apply N.mul_le_mono_r; lia.
Qed.
Lemma nb_digits_le n k : n < 10 ^ N.succ k -> N.of_nat (Decimal.nb_digits (N.to_uint n)) <= N.succ k.
Proof.
  intro H. destruct (N.to_uint n) as [|u|u|u|u|u|u|u|u|u|u] eqn:E; [cbn; lia|..].
  { assert (U : Decimal.unorm (Decimal.D0 u) = Decimal.D0 u) by (rewrite <- E; rewrite <- DecimalN.Unsigned.to_of; rewrite DecimalN.Unsigned.of_to; reflexivity).
    unfold Decimal.unorm in U. destruct (Decimal.nzhead (Decimal.D0 u)) eqn:Z; try discriminate U; try (injection U as <-; cbn; lia). exfalso. exact (DecimalFacts.nzhead_nonzero _ _ Z). }
  all: assert (V : N.of_uint (N.to_uint n) = n) by apply DecimalN.Unsigned.of_to; rewrite E in V; unfold N.of_uint in V; cbn [Pos.of_uint] in V; cbn [Decimal.nb_digits]; rewrite <- V in H; clear E V;
    match type of H with N.pos (Pos.of_uint_acc ?w ?a) < _ => pose proof (of_uint_acc_ge w a) as G;
      rewrite Nat2N.inj_succ; apply -> N.succ_le_mono; destruct (N.le_gt_cases (N.of_nat (Decimal.nb_digits w)) k) as [L|L]; [exact L|]; exfalso;
      assert (P : 10 ^ N.succ k <= 10 ^ N.of_nat (Decimal.nb_digits w)) by (apply N.pow_le_mono_r; lia) end; lia.
Qed.
Lemma digits_size z k : (0 <= z < Z.of_N (10 ^ N.succ k))%Z -> text_size (str_int z) <= N.succ k.
Proof.
  intros [H1 H2]. destruct z as [|p|p]; [cbn; lia| |lia]; unfold str_int; rewrite uint_chars_size; apply nb_digits_le; lia.
Qed.
