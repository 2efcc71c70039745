(** Preparing user data for storage: [prepare_data], [prepare_field_name]
    (diffing.py:39-127), [prepare_record_data] (ingest.py:15-32) and
    [partition] (utils.py:61-73). *)
From Coq Require Import String Ascii.
From Coq Require Import List ZArith NArith Bool Lia.
From Coq Require Import Floats.SpecFloat.
From Verif Require Import PyVal Time.
Import ListNotations.
Open Scope nat_scope.

(** The two unicode facts the code depends on: [is_C] is membership of the
    categories C* (regex module, diffing.py:39,43), [is_space] is what
    [str.strip()] removes. They are parameters: the tables are data of the
    [regex] module and of CPython. *)
Record chardb := CDB { is_C : N -> bool; is_space : N -> bool }.

(** The only facts about the tables the theorems need: "_" and "-" are visible
    characters, as are the characters [strftime] produces. (specification, models no code) *)
Definition db_ok (db : chardb) : Prop :=
  Forall (fun c => is_C db c = false /\ is_space db c = false)
    (lit "_-+.:T0123456789id"%string).

(** Input values (what a user may put in a record). [OSeq] is a list, tuple or
    set given by its iteration order; [OOther s] is any other object, [s] being
    its [str()]. (diffing.py:66-97) *)
Inductive pykey :=
| KS (s : pystr)   (* a str key *)
| KO (s : pystr).  (* any other hashable key, given by its str(); never == "_id" *)

(** diffing.py:66-97 *)
Inductive pyobj :=
| ONone
| OStr (s : pystr)
| OBool (b : bool)
| OInt (z : Z)
| OFloat (f : spec_float)
| ODict (d : list (pykey * pyobj))
| OSeq (l : list pyobj)
| ODateTime (t : datetime)
| ODate (d : pydate)
| OOther (s : pystr).

Section pyobj_induction.
  Variable P : pyobj -> Prop.
  Hypothesis HNone : P ONone.
  Hypothesis HStr : forall s, P (OStr s).
  Hypothesis HBool : forall b, P (OBool b).
  Hypothesis HInt : forall z, P (OInt z).
  Hypothesis HFloat : forall f, P (OFloat f).
  Hypothesis HDict : forall d, Forall (fun kv => P (snd kv)) d -> P (ODict d).
  Hypothesis HSeq : forall l, Forall P l -> P (OSeq l).
  Hypothesis HDT : forall t, P (ODateTime t).
  Hypothesis HD : forall d, P (ODate d).
  Hypothesis HOther : forall s, P (OOther s).
  (** induction over Python objects; a proof device, models no code *)
  Fixpoint pyobj_ind' (v : pyobj) : P v :=
    match v with
    | ONone => HNone | OStr s => HStr s | OBool b => HBool b | OInt z => HInt z
    | OFloat f => HFloat f
    | ODict d => HDict d ((fix go d : Forall (fun kv => P (snd kv)) d :=
        match d with [] => Forall_nil _ | x :: r => Forall_cons _ (pyobj_ind' (snd x)) (go r) end) d)
    | OSeq l => HSeq l ((fix go l : Forall P l :=
        match l with [] => Forall_nil _ | x :: r => Forall_cons _ (pyobj_ind' x) (go r) end) l)
    | ODateTime t => HDT t | ODate d => HD d | OOther s => HOther s
    end.
End pyobj_induction.

Section Prepare.
Variable db : chardb.
(** Platform flag of strftime's %Y, see [Time.year_str]. *)
Variable pad : bool.

(** [str.strip()] (diffing.py:117) *)
Fixpoint lstrip (s : pystr) : pystr :=
  match s with [] => [] | c :: r => if is_space db c then lstrip r else s end.
(** [str.strip()] (diffing.py:117) *)
Definition strip (s : pystr) : pystr := rev (lstrip (rev (lstrip s))).

(** diffing.py:39 [invalid_value_char_regex]: category C but not \n \r \t. *)
Definition bad_value_char (c : N) : bool :=
  is_C db c && negb (N.eqb c 10 || N.eqb c 13 || N.eqb c 9).
(** diffing.py:71 *)
Definition clean_value (s : pystr) : pystr := filter (fun c => negb (bad_value_char c)) s.

(** [str(name)] (diffing.py:117) *)
Definition key_str (k : pykey) : pystr := match k with KS s | KO s => s end.
(** indexing/fields.py:11 [DATA_ID_FIELD] *)
Definition DATA_ID : pystr := lit "_id"%string.
(** diffing.py:122: [name == DATA_ID_FIELD] *)
Definition key_is_id (k : pykey) : bool :=
  match k with KS s => str_eqb s DATA_ID | KO _ => false end.

(** diffing.py:117 *)
Definition clean_name (s : pystr) : pystr :=
  strip (map (fun c => if N.eqb c 46 then 95%N else c) (filter (fun c => negb (is_C db c)) s)).

(** diffing.py:100-127 [prepare_field_name] *)
Definition prepare_field_name (name : pykey) : pystr :=
  match clean_name (key_str name) with
  | [] => [45%N]
  | c :: r =>
      if key_is_id name then DATA_ID
      else if N.eqb c 95 then 45%N :: r else c :: r
  end.

(** diffing.py:46-97 [prepare_data]; a dict comprehension with equal keys keeps
    the first position and the last value ([dict_of]). *)
Fixpoint prepare_data (v : pyobj) : value :=
  match v with
  | ONone => VNone
  | OStr s => VStr (clean_value s)
  | OBool b => VBool b
  | OInt z => VInt z
  | OFloat f => VFloat f
  | ODict d => VDict (dict_of (map (fun kv => (prepare_field_name (fst kv), prepare_data (snd kv))) d))
  | OSeq l => VList (map prepare_data l)
  | ODateTime t => VStr (strftime_dt pad t)
  | ODate d => VStr (strftime_date pad d)
  | OOther s => VStr s
  end.

(** model.py:13-37 [Record], [is_delete]. *)
Record record := Rec { r_id : pystr; r_data : list (pykey * pyobj) }.
(** model.py:21-29 [is_delete] *)
Definition is_delete (r : record) : bool := match r_data r with [] => true | _ => false end.

(** ingest.py:15-32 [prepare_record_data] *)
Definition prepare_record_data (r : record) : dict :=
  if is_delete r then []
  else
    match prepare_data (ODict (r_data r)), prepare_data (OStr (r_id r)) with
    | VDict d, i => dset d DATA_ID i
    | _, _ => []
    end.

(** A stored value handed back to [prepare_data]. (specification, models no code) *)
Fixpoint as_obj (v : value) : pyobj :=
  match v with
  | VNone => ONone | VBool b => OBool b | VInt z => OInt z | VFloat f => OFloat f
  | VStr s => OStr s
  | VList l => OSeq (map as_obj l)
  | VDict d => ODict (map (fun kv => (KS (fst kv), as_obj (snd kv))) d)
  end.

(** ** Specification: what a clean name / storable value is *)

(** specification, models no code *)
Definition clean_field_name (s : pystr) : Prop :=
  s <> [] /\ (forall c, In c s -> is_C db c = false) /\ ~ In 46%N s
  /\ (forall c r, s = c :: r -> is_space db c = false)
  /\ (forall c r, s = r ++ [c] -> is_space db c = false)
  /\ (forall r, s = 95%N :: r -> s = DATA_ID).

(** specification: text diffing.py:71 leaves alone *)
Definition clean_text (s : pystr) : Prop :=
  forall c, In c s -> is_C db c = true -> c = 10%N \/ c = 13%N \/ c = 9%N.

(** specification: the values diffing.py:46-97 leaves alone *)
Fixpoint storable (v : value) : Prop :=
  match v with
  | VStr s => clean_text s
  | VList l => (fix all l := match l with [] => True | x :: r => storable x /\ all r end) l
  | VDict d => NoDup (map fst d) /\
      (fix all d := match d with [] => True
       | kv :: r => (clean_field_name (fst kv) /\ storable (snd kv)) /\ all r end) d
  | _ => True
  end.

(** Objects handled by the fallback branch print without control characters. (specification, models no code) *)
Fixpoint others_print_clean (v : pyobj) : Prop :=
  match v with
  | OOther s => clean_text s
  | OSeq l => (fix all l := match l with [] => True | x :: r => others_print_clean x /\ all r end) l
  | ODict d => (fix all d := match d with [] => True
       | kv :: r => others_print_clean (snd kv) /\ all r end) d
  | _ => True
  end.

End Prepare.

(** utils.py:61-73 [partition]; fuel is an upper bound of the number of chunks,
    [islice(it, size)] takes the next [size] elements. *)
Fixpoint partition_loop {A} (fuel : nat) (size : nat) (it : list A) : list (list A) :=
  match fuel with
  | O => []
  | S f => match firstn size it with
           | [] => []
           | chunk => chunk :: partition_loop f size (skipn size it)
           end
  end.
(** utils.py:61-73 [partition] *)
Definition partition {A} (it : list A) (size : nat) : list (list A) :=
  partition_loop (S (length it)) size it.
