(** Model of small functions of moteus_tool
    (/repo/lib/python/moteus/moteus_tool.py 532-559). *)
From Coq Require Import Ascii String ZArith List Bool.
From Verif Require Import PyBase PyBytes.
Import ListNotations.
Open Scope Z_scope.

(** ** int(s) of bytes or of an ASCII str, as CPython does it
    (Objects/longobject.c, PyLong_FromString): white space around, a sign, single
    underscores between digits.  Digits that are not ASCII and the
    limit on the number of digits (4300) are not modelled. *)
Definition digit10 (c : Z) : option Z :=
  if (48 <=? c) && (c <=? 57) then Some (c - 48) else None.

(** [prev]: the last character was an underscore. *)
Fixpoint digits10 (prev : bool) (acc : Z) (l : list Z) : option (Z * list Z) :=
  match l with
  | [] => if prev then None else Some (acc, [])
  | c :: l' =>
      match digit10 c with
      | Some v => digits10 false (acc * 10 + v) l'
      | None =>
          if c =? 95 then (if prev then None else digits10 true acc l')
          else if prev then None else Some (acc, l)
      end
  end.

Definition int10 (s : list Z) : res Z :=
  let s := drop_space s in
  let '(neg, s) :=
    match s with
    | c :: s' => if c =? 43 then (false, s') else if c =? 45 then (true, s') else (false, s)
    | [] => (false, s)
    end in
  match s with
  | [] => Raise ValueError
  | c :: _ =>
      match digit10 c with
      | None => Raise ValueError
      | Some _ =>
          match digits10 false 0 s with
          | Some (v, rest) =>
              match drop_space rest with
              | [] => Ok (if neg then - v else v)
              | _ => Raise ValueError
              end
          | None => Raise ValueError
          end
      end
  end.

(** ** expand_targets (moteus_tool.py 532-544) *)

(** range(a, b) *)
Definition py_range (a b : Z) : list Z := map (fun i => a + Z.of_nat i) (seq 0 (Z.to_nat (b - a))).

(** One field (moteus_tool.py 538-542): a str contains '-' or not; unpacking into two names fails
    for any other number of fields. *)
Definition field_ids (field : list Z) : res (list Z) :=
  if existsb (Z.eqb 45) field then
    match split_on 45 field with
    | [first; last] =>
        let* a := int10 first in
        let* b := int10 last in
        Ok (py_range a (b + 1))
    | _ => Raise ValueError
    end
  else
    let* n := int10 field in
    Ok [n].

Fixpoint fields_ids (fields : list (list Z)) : res (list Z) :=
  match fields with
  | [] => Ok []
  | f :: fields =>
      let* a := field_ids f in
      let* b := fields_ids fields in
      Ok (a ++ b)
  end.

(** sorted(list(s)) of a set of integers; the set is kept as a list in which an
    element can be repeated, and insertion drops the repetitions. *)
Fixpoint insert (x : Z) (l : list Z) : list Z :=
  match l with
  | [] => [x]
  | y :: l' => if x <? y then x :: l else if x =? y then l else y :: insert x l'
  end.
Definition sorted_set (l : list Z) : list Z := fold_right insert [] l.

Definition expand_targets (targets : list (list Z)) : res (list Z) :=
  let* l := fields_ids (List.concat (map (split_on 44) targets)) in
  Ok (sorted_set l).

(** ** _base64_serial_number (moteus_tool.py 547-559) *)
Definition base64_digits : list Z :=
  lit "ABCDEFGHIJKLMNOPQRSTUVWXYZabcdefghijklmnopqrstuvwxyz0123456789+/".

(** The loop with [n] turns left; the result is filled from its end. *)
Fixpoint base64_loop (n : nat) (serial : Z) (result : list Z) : list Z :=
  match n with
  | O => result
  | S n => base64_loop n (serial / 64) (nth (Z.to_nat (serial mod 64)) base64_digits 0 :: result)
  end.

Definition base64_serial_number (s1 s2 s3 : Z) : list Z :=
  base64_loop 16 (Z.lor (Z.lor (Z.shiftl s1 64) (Z.shiftl s2 32)) s3) [].
