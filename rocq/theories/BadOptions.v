(** Exceptions that options cause when records are parsed (indexing/parser.py:143-202). *)
From Coq Require Import String Ascii.
From Coq Require Import List ZArith NArith Bool.
From Coq Require Import Floats.SpecFloat.
From Verif Require Import PyVal Time TimeParse Parser.
Import ListNotations.
Open Scope nat_scope.

(** When the calls made with the formats of the options raise, as parameters (any functions).
    [t_date s f]: parse_to_timestamp(s, f) raises something other than ValueError. [t_float f x]: [f.format(x)] raises. (utils.py:48; indexing/parser.py:159) *)
Record traps := Traps { t_date : pystr -> pystr -> bool; t_float : pystr -> spec_float -> bool }.

Section Checked.
Variable L : lib.
Variable T : traps.
Variable o : options.
(** indexing/parser.py:192-200: the formats are tried until one works; only ValueError is caught *)
Fixpoint dates_raise (formats : list pystr) (s : pystr) : bool :=
  match formats with
  | [] => false
  | f :: r => if t_date T s f then true else match l_strptime L s f with Some _ => false | None => dates_raise r s end
  end.
(** indexing/parser.py:143-202 [parse_value]: whether it raises. Results are cached, exceptions are not; so it raises every time. *)
Definition value_raises (v : value) : bool :=
  match v with VFloat x => t_float T (float_format o) x | _ => false end || dates_raise (date_formats o) (text_of L o v).
(** indexing/parser.py:75-94, 120-136: the values that parse_value is called with *)
Fixpoint reached (v : value) : list value :=
  match v with
  | VDict d => flat_map (fun kv => reached (snd kv)) d
  | VList l => flat_map reached l
  | VNone | VStr [] => []
  | _ => [v]
  end.
(** indexing/parser.py:22-53 [parse]: neither it nor parse_dict and parse_list catch anything, so that it raises exactly if one of the
    calls of parse_value does, or something else that [Parser.parse] models. *)
Definition parse_checked (d : dict) : option parsed_data := if existsb value_raises (reached (VDict d)) then None else parse L o d.
End Checked.
