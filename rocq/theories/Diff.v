(** Model of [diff] and [patch] (splitgill/diffing.py:130-375). *)
From Coq Require Import List ZArith NArith Bool Lia.
From Verif Require Import PyVal.
Import ListNotations.

(** An element of a DiffOp path: a dict key or a list index (diffing.py:136). *)
Inductive pkey := PK (k : pystr) | PI (i : nat).

(** diffing.py:135-136: the path of a DiffOp *)
Definition path := list pkey.

(** The [ops] dict of a DiffOp (diffing.py:138): one optional entry per operation name
    "dc", "dn", "dd" (dict changes, new values, deleted keys) and "lc", "ln", "ld"
    (list changes, new tail, index from which to delete). *)
Record ops := mkOps {
  o_dc : option dict;
  o_dn : option dict;
  o_dd : option (list pystr);
  o_lc : option (list (nat * value));
  o_ln : option (list value);
  o_ld : option nat
}.

(** diffing.py:130-138 *)
Record diffop := mkDiff { dpath : path; dops : ops }.

(** diffing.py:144-152, 166, 220: a pending comparison of two dicts or two lists. *)
Inductive comparison :=
| CDict (p : path) (l r : dict)
| CList (p : path) (l r : list value).

(** diffing.py:144-152: the path of a comparison *)
Definition cpath c := match c with CDict p _ _ => p | CList p _ _ => p end.
(** diffing.py:144-152: the left of a comparison *)
Definition cleft c := match c with CDict _ l _ => VDict l | CList _ l _ => VList l end.
(** diffing.py:144-152: the right of a comparison *)
Definition cright c := match c with CDict _ _ r => VDict r | CList _ _ r => VList r end.

(** Python truthiness of the collected containers: an op is stored only when non-empty. (diffing.py:186, 190, 213, 269) *)
Definition nonempty {A} (l : list A) : option (list A) :=
  match l with [] => None | _ => Some l end.

(** diffing.py:183-185, [new_values] *)
Definition new_values (l r : dict) : dict := filter (fun kv => negb (dmem l (fst kv))) r.
(** diffing.py:189, [deleted_keys] *)
Definition deleted_keys (l r : dict) : list pystr := filter (fun k => negb (dmem r k)) (dkeys l).

(** diffing.py:193-212: the loop over [self.left.items()], returning [changes] and
    [further_comparisons]. *)
Fixpoint dict_changes (p : path) (l r : dict) : dict * list comparison :=
  match l with
  | [] => ([], [])
  | (k, lv) :: l' =>
      let '(ch, fu) := dict_changes p l' r in
      match dget r k with
      | None => (ch, fu)
      | Some rv =>
          if py_eqb lv rv then (ch, fu)
          else match lv, rv with
               | VDict dl, VDict dr => (ch, CDict (p ++ [PK k]) dl dr :: fu)
               | VList ll, VList lr => (ch, CList (p ++ [PK k]) ll lr :: fu)
               | _, _ => ((k, rv) :: ch, fu)
               end
      end
  end.

(** diffing.py:238-268: the loop over [zip_longest(left, right)] from index [i];
    returns [changes], [further_comparisons], the "ln" entry and the "ld" entry. *)
Fixpoint list_changes (p : path) (i : nat) (l r : list value)
  : list (nat * value) * list comparison * option (list value) * option nat :=
  match l, r with
  | [], [] => ([], [], None, None)
  | [], _ :: _ => ([], [], Some r, None)
  | _ :: _, [] => ([], [], None, Some i)
  | lv :: l', rv :: r' =>
      let '(ch, fu, ln, ld) := list_changes p (S i) l' r' in
      if py_eqb lv rv then (ch, fu, ln, ld)
      else match lv, rv with
           | VDict dl, VDict dr => (ch, CDict (p ++ [PI i]) dl dr :: fu, ln, ld)
           | VList ll, VList lr => (ch, CList (p ++ [PI i]) ll lr :: fu, ln, ld)
           | _, _ => ((i, rv) :: ch, fu, ln, ld)
           end
  end.

(** [if ops] (diffing.py:216, 272) *)
Definition ops_empty (o : ops) : bool :=
  match o with
  | mkOps None None None None None None => true
  | _ => false
  end.

(** DictComparison.compare / ListComparison.compare (diffing.py:171-216, 225-272) *)
Definition compare (c : comparison) : option diffop * list comparison :=
  match c with
  | CDict p l r =>
      let '(ch, fu) := dict_changes p l r in
      let o := mkOps (nonempty ch) (nonempty (new_values l r)) (nonempty (deleted_keys l r))
                     None None None in
      (if ops_empty o then None else Some (mkDiff p o), fu)
  | CList p l r =>
      let '(ch, fu, ln, ld) := list_changes p 0 l r in
      let o := mkOps None None None (nonempty ch) ln ld in
      (if ops_empty o then None else Some (mkDiff p o), fu)
  end.

(** The work queue loop of [diff] (diffing.py:307-314). [fuel] bounds the number of
    iterations, [None] means it ran out; [diff_loop_total] (DiffProofs.v) shows that the
    fuel given by [diff] always suffices. *)
Fixpoint diff_loop (fuel : nat) (q : list comparison) : option (list diffop) :=
  match q with
  | [] => Some []
  | c :: q' =>
      match fuel with
      | O => None
      | S n =>
          let '(o, fu) := compare c in
          match diff_loop n (q' ++ fu) with
          | None => None
          | Some rest => Some (match o with Some d => d :: rest | None => rest end)
          end
      end
  end.

(** [diff] (diffing.py:284-314) for two dicts. The generator is modelled by the list of
    everything it yields. *)
Definition diff (base new : dict) : list diffop :=
  if py_eqb (VDict base) (VDict new) then []
  else match diff_loop (vsize (VDict base)) [CDict [] base new] with
       | Some l => l
       | None => []
       end.

(** [diff] on arbitrary values (diffing.py:299-303): [None] models
    DiffingTypeComparisonException. *)
Definition diff_any (base new : value) : option (list diffop) :=
  if py_eqb base new then Some []
  else match base, new with
       | VDict b, VDict n => Some (diff b n)
       | _, _ => None
       end.

(** ** patch *)

(** [l[i] = x]; [None] is IndexError (diffing.py:354, 369) *)
Fixpoint lset {A} (l : list A) (i : nat) (x : A) : option (list A) :=
  match l, i with
  | [], _ => None
  | _ :: l', O => Some (x :: l')
  | y :: l', S j => match lset l' j x with Some l'' => Some (y :: l'') | None => None end
  end.

(** diffing.py:363-364, [None] is KeyError *)
Fixpoint del_keys {A} (d : list (pystr * A)) (ks : list pystr) : option (list (pystr * A)) :=
  match ks with
  | [] => Some d
  | k :: ks' => if dmem d k then del_keys (ddel d k) ks' else None
  end.
(** diffing.py:368-369 *)
Fixpoint set_items {A} (l : list A) (cs : list (nat * A)) : option (list A) :=
  match cs with
  | [] => Some l
  | (i, v) :: cs' => match lset l i v with Some l' => set_items l' cs' | None => None end
  end.

(** an exception ([None]) ends the computation: Python raises through the loops of diffing.py:347-373 *)
Definition bind {A B} (o : option A) (f : A -> option B) : option B :=
  match o with Some a => f a | None => None end.

(** diffing.py:357-373: apply one ops dict to the (copied) target; [None] stands for the
    exception raised when an operation does not fit the target. *)
Definition apply_ops (o : ops) (target : value) : option value :=
  match target with
  | VDict d =>
      match o_lc o, o_ln o, o_ld o with
      | None, None, None =>
          let d1 := match o_dc o with Some c => dupdate d c | None => d end in
          let d2 := match o_dn o with Some n => dupdate d1 n | None => d1 end in
          match o_dd o with
          | Some ks => match del_keys d2 ks with Some d3 => Some (VDict d3) | None => None end
          | None => Some (VDict d2)
          end
      | _, _, _ => None
      end
  | VList l =>
      match o_dc o, o_dn o, o_dd o with
      | None, None, None =>
          match (match o_lc o with Some cs => set_items l cs | None => Some l end) with
          | None => None
          | Some l1 =>
              let l2 := match o_ln o with Some t => l1 ++ t | None => l1 end in
              Some (VList (match o_ld o with Some n => firstn n l2 | None => l2 end))
          end
      | _, _, _ => None
      end
  | _ => None
  end.

(** diffing.py:351-355: walk down [path] copying every container on the way, and apply
    [f] to the container reached. In this value level model copying is invisible; the
    aliasing behaviour is modelled in HeapPatch.v. [None] is KeyError / IndexError /
    TypeError / AttributeError. *)
Fixpoint upd_path (p : path) (f : value -> option value) (v : value) : option value :=
  match p with
  | [] => f v
  | PK k :: p' =>
      match v with
      | VDict d => match dget d k with
                   | Some c => match upd_path p' f c with
                               | Some c' => Some (VDict (dset d k c'))
                               | None => None
                               end
                   | None => None
                   end
      | _ => None
      end
  | PI i :: p' =>
      match v with
      | VList l => match nth_error l i with
                   | Some c => match upd_path p' f c with
                               | Some c' => match lset l i c' with
                                            | Some l' => Some (VList l')
                                            | None => None
                                            end
                               | None => None
                               end
                   | None => None
                   end
      | _ => None
      end
  end.

(** diffing.py:347-373, the loop over all ops *)
Fixpoint patch_loop (v : value) (os : list diffop) : option value :=
  match os with
  | [] => Some v
  | o :: os' => match upd_path (dpath o) (apply_ops (dops o)) v with
                | Some v' => patch_loop v' os'
                | None => None
                end
  end.

(** [patch] (diffing.py:322-375); [None] is an exception. *)
Definition patch (base : dict) (os : list diffop) : option dict :=
  match patch_loop (VDict base) os with
  | Some (VDict d) => Some d
  | _ => None
  end.
