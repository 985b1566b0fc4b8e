(** Model of lib/python/moteus/multiplex.py. *)
From Coq Require Import ZArith List Bool.
From Coq Require Import Floats.SpecFloat.
From Verif Require Import PyBase PyFloat.
Import ListNotations.
Open Scope Z_scope.
Open Scope py_scope.

(** multiplex.py:22-26.  The resolutions are small ints in Python; any
    other int used as a resolution is outside the model. *)
Inductive resolution := INT8 | INT16 | INT32 | F32 | IGNORE.

Definition res_eqb (a b : resolution) : bool :=
  match a, b with
  | INT8, INT8 | INT16, INT16 | INT32, INT32 | F32, F32 | IGNORE, IGNORE => true
  | _, _ => false
  end.

(** multiplex.py:22-26, the numeric value of a resolution. *)
Definition res_code (r : resolution) : Z :=
  match r with INT8 => 0 | INT16 => 1 | INT32 => 2 | F32 => 3 | IGNORE => 4 end.

(** multiplex.py:162, 280: (cmd >> 2) & 3 used as a resolution. *)
Definition res_of_code (c : Z) : resolution :=
  if c =? 0 then INT8 else if c =? 1 then INT16 else if c =? 2 then INT32 else F32.

(** multiplex.py:28-40. *)
Definition WRITE_INT8 := 0x00.
Definition WRITE_INT32 := 0x08.
Definition WRITE_F32 := 0x0c.
Definition STREAM_CLIENT_DATA := 0x40.
Definition STREAM_SERVER_DATA := 0x41.
Definition STREAM_CLIENT_POLL := 0x42.
Definition NOP := 0x50.

(** A value handed to struct: a Python int or float. *)
Inductive pyval := PInt (z : Z) | PFloat (x : float).

(** multiplex.py:43-48, 50-55: width in bytes and TYPES_MAX of the
    integer formats '<b', '<h', '<i'. *)
Definition int_width (r : resolution) : nat :=
  match r with INT8 => 1 | INT16 => 2 | _ => 4 end%nat.
Definition int_max (r : resolution) : Z :=
  match r with INT8 => 127 | INT16 => 32767 | _ => 2147483647 end.

(** struct.pack of '<b', '<h', '<i': two's complement, struct.error when
    out of range. *)
Definition pack_int (w : nat) (z : Z) : res (list Z) :=
  let half := 2 ^ (8 * Z.of_nat w - 1) in
  if (- half <=? z) && (z <? half) then Ok (le_bytes w z) else Raise StructError.

(** struct.unpack of '<b', '<h', '<i' on exactly w bytes. *)
Definition unpack_int (w : nat) (b : list Z) : Z :=
  let v := le_value b in
  if v <? 2 ^ (8 * Z.of_nat w - 1) then v else v - 2 ^ (8 * Z.of_nat w).

(** multiplex.py:57-72 read_varuint(offset, buf); [i], [shift], [result]
    are the loop variables.  Returns (value or None, next offset).  The
    offset is a natural number: a negative Python index is outside the
    model. *)
Fixpoint read_varuint_loop (n : nat) (i : nat) (result shift : Z)
         (offset : nat) (buf : list Z) : option Z * nat :=
  match n with
  | O => (None, offset + 5)%nat
  | S n =>
      match nth_error buf (offset + i) with
      | None => (None, offset + i)%nat
      | Some this_byte =>
          let result := Z.lor result (Z.shiftl (Z.land this_byte 0x7f) shift) in
          if Z.land this_byte 0x80 =? 0
          then (Some result, offset + i + 1)%nat
          else read_varuint_loop n (S i) result (shift + 7) offset buf
      end
  end.

Definition read_varuint (offset : nat) (buf : list Z) : option Z * nat :=
  read_varuint_loop 5 0 0 0 offset buf.

(** multiplex.py:75-98 saturate(value, resolution, scale).  [value] is a
    float (a Python int argument is converted by `value / scale` to the
    same float).  With resolution F32, TYPES_MAX is NaN, so both
    comparisons are false.  Resolution IGNORE: TYPES_MAX[4] raises. *)
Definition saturate (value : float) (r : resolution) (scale : float) : res pyval :=
  let body :=
    let scaled := fdiv value scale in
    match r with
    | IGNORE => Raise IndexError
    | F32 => Ok (PFloat scaled)
    | _ =>
        let m := int_max r in
        let double_m := float_of_Z m in
        if fltb scaled (fneg double_m) then Ok (PInt (- m))
        else if fgtb scaled double_m then Ok (PInt m)
        else let* z := py_int scaled in Ok (PInt z)
    end in
  if negb (isfinite value) then
    match r with
    | INT8 => Ok (PInt (-128))
    | INT16 => Ok (PInt (-32768))
    | INT32 => Ok (PInt (-2147483648))
    | F32 => Ok (PFloat value)
    | IGNORE => body
    end
  else body.

(** multiplex.py:101-102 (IGNORE: IndexError, only reachable through a
    caller's mistake; given size 0 here). *)
Definition resolution_size (r : resolution) : nat :=
  match r with INT8 => 1 | INT16 => 2 | INT32 => 4 | F32 => 4 | IGNORE => 0 end%nat.

(** TYPES[resolution].pack(value), multiplex.py:43-48, 321. *)
Definition pack (r : resolution) (v : pyval) : res (list Z) :=
  match r, v with
  | IGNORE, _ => Raise IndexError
  | F32, PFloat x => pack_f32 x
  | F32, PInt z => pack_f32 (float_of_Z z)
  | _, PInt z => pack_int (int_width r) z
  | _, PFloat _ => Raise StructError
  end.

(** TYPES[resolution].unpack(b)[0], multiplex.py:209, for the right
    number of bytes. *)
Definition unpack (r : resolution) (b : list Z) : pyval :=
  match r with
  | F32 => PFloat (unpack_f32 b)
  | _ => PInt (unpack_int (int_width r) b)
  end.

(** ** RegisterParser, multiplex.py:105-238 *)

Record parser := {
  p_data : list Z;
  p_offset : nat;
  p_remaining : Z;
  p_register : Z;
  p_resolution : resolution
}.

(** multiplex.py:109-121 *)
Definition parser_init (data : list Z) : parser :=
  {| p_data := data; p_offset := 0; p_remaining := 0; p_register := 0;
     p_resolution := INT8 |}.

Definition p_size (p : parser) : nat := length (p_data p).

Definition set_offset (p : parser) (o : nat) : parser :=
  {| p_data := p_data p; p_offset := o; p_remaining := p_remaining p;
     p_register := p_register p; p_resolution := p_resolution p |}.

(** multiplex.py:149-198, the `while self._offset < self.size` loop of
    next().  The result is None for (False, 0, INT8).  The fuel is the
    number of unread bytes; each iteration consumes at least one. *)
Fixpoint next_scan (fuel : nat) (p : parser) : parser * option (Z * resolution) :=
  match fuel with
  | O => (p, None)
  | S fuel =>
      match nth_error (p_data p) (p_offset p) with
      | None => (p, None)
      | Some cmd =>
          let p := set_offset p (S (p_offset p)) in
          if cmd =? NOP then next_scan fuel p
          else if (p_size p <=? p_offset p)%nat then (p, None)
          else if (0x20 <=? cmd) && (cmd <? 0x30) then
            let r := res_of_code (Z.land (Z.shiftr cmd 2) 0x03) in
            let p := {| p_data := p_data p; p_offset := p_offset p;
                        p_remaining := p_remaining p; p_register := p_register p;
                        p_resolution := r |} in
            let c0 := Z.land cmd 0x03 in
            (* count as a byte of its own when the two low bits are 0 *)
            let after_count (p : parser) (count : Z) :=
              if count =? 0 then next_scan fuel p
              else
                match read_varuint (p_offset p) (p_data p) with
                | (None, off) => (set_offset p off, None)
                | (Some reg, off) =>
                    let p' := {| p_data := p_data p; p_offset := off;
                                 p_remaining := count - 1; p_register := reg;
                                 p_resolution := p_resolution p |} in
                    if (p_size p <? off + resolution_size (p_resolution p))%nat
                    then (p', None)
                    else ({| p_data := p_data p'; p_offset := off;
                             p_remaining := count - 1; p_register := reg + 1;
                             p_resolution := p_resolution p |},
                          Some (reg, p_resolution p))
                end in
            if c0 =? 0 then
              match nth_error (p_data p) (p_offset p) with
              | None => (p, None) (* excluded by the test above *)
              | Some count =>
                  let p := set_offset p (S (p_offset p)) in
                  if (p_size p <=? p_offset p)%nat then (p, None)
                  else after_count p count
              end
            else after_count p c0
          else (set_offset p (p_size p), None)
      end
  end.

(** multiplex.py:123-198 next() *)
Definition next (p : parser) : parser * option (Z * resolution) :=
  if (p_size p <=? p_offset p)%nat then (p, None)
  else if negb (p_remaining p =? 0) then
    let p' := {| p_data := p_data p; p_offset := p_offset p;
                 p_remaining := p_remaining p - 1;
                 p_register := p_register p + 1;
                 p_resolution := p_resolution p |} in
    if (p_size p <? p_offset p + resolution_size (p_resolution p))%nat
    then (p', None)
    else (p', Some (p_register p, p_resolution p))
  else next_scan (p_size p - p_offset p) p.

(** multiplex.py:200-209 read(resolution) *)
Definition read (p : parser) (r : resolution) : res (parser * pyval) :=
  let size := resolution_size r in
  if (p_size p <? p_offset p + size)%nat then Raise RuntimeError
  else Ok (set_offset p (p_offset p + size),
           unpack r (slice (p_data p) (p_offset p) (p_offset p + size))).

(** multiplex.py:211-223 nanify *)
Definition nanify (v : pyval) (r : resolution) : pyval :=
  match r, v with
  | INT8, PInt z => if z =? -128 then PFloat fnan else v
  | INT16, PInt z => if z =? -32768 then PFloat fnan else v
  | INT32, PInt z => if z =? -2147483648 then PFloat fnan else v
  | _, _ => v
  end.

(** Python's number * float. *)
Definition pymul (v : pyval) (s : float) : float :=
  match v with
  | PInt z => fmul (float_of_Z z) s
  | PFloat x => fmul x s
  end.

(** A triple of scales, as the arguments int8_scale, int16_scale,
    int32_scale of read_mapped and write_mapped. *)
Record scales := { s8 : float; s16 : float; s32 : float }.

(** multiplex.py:230, 352: scales[resolution]; IGNORE would be an
    IndexError, never reached (see [pack] and [read]). *)
Definition scale_at (s : scales) (r : resolution) : float :=
  match r with INT8 => s8 s | INT16 => s16 s | INT32 => s32 s | _ => flit 1 0 end.

(** multiplex.py:225-231 read_mapped *)
Definition read_mapped (p : parser) (r : resolution) (s : scales)
  : res (parser * pyval) :=
  let* pv := read p r in
  Ok (fst pv, PFloat (pymul (nanify (snd pv) r) (scale_at s r))).

(** multiplex.py:233-238 read_int *)
Definition read_int (p : parser) (r : resolution) : res (parser * pyval) :=
  let* pv := read p r in
  match snd pv with
  | PInt z => Ok (fst pv, PInt z)
  | PFloat x => let* z := py_int x in Ok (fst pv, PInt z)
  end.

(** ** QueryParser, multiplex.py:241-306.  State: the same fields. *)

Inductive qnext :=
| QItem (reg : Z) (r : resolution)   (* returned a pair *)
| QNone                              (* __next__ fell off its end: returned None *)
| QStop                              (* StopIteration *)
| QRaise (e : exn).

(** multiplex.py:272-306, the while loop of __next__.  The fuel is the number
    of unread bytes. *)
Fixpoint qscan (fuel : nat) (p : parser) : parser * qnext :=
  match fuel with
  | O => (p, QNone)
  | S fuel =>
      match nth_error (p_data p) (p_offset p) with
      | None => (p, QNone)
      | Some cmd =>
          let p := set_offset p (S (p_offset p)) in
          if cmd =? NOP then qscan fuel p
          else if (0x10 <=? cmd) && (cmd <? 0x20) then
            let r := res_of_code (Z.land (Z.shiftr cmd 2) 0x03) in
            let p := {| p_data := p_data p; p_offset := p_offset p;
                        p_remaining := p_remaining p; p_register := p_register p;
                        p_resolution := r |} in
            let c0 := Z.land cmd 0x03 in
            let after_count (p : parser) (count : Z) :=
              if count =? 0 then qscan fuel p
              else
                match read_varuint (p_offset p) (p_data p) with
                | (None, off) => (set_offset p off, QRaise RuntimeError)
                | (Some reg, off) =>
                    ({| p_data := p_data p; p_offset := off;
                        p_remaining := count - 1; p_register := reg + 1;
                        p_resolution := p_resolution p |},
                     QItem reg (p_resolution p))
                end in
            if c0 =? 0 then
              match nth_error (p_data p) (p_offset p) with
              | None => (p, QRaise RuntimeError)
              | Some count => after_count (set_offset p (S (p_offset p))) count
              end
            else after_count p c0
          else qscan fuel p
      end
  end.

(** multiplex.py:261-306 __next__ *)
Definition qnext_step (p : parser) : parser * qnext :=
  if negb (p_remaining p =? 0) then
    ({| p_data := p_data p; p_offset := p_offset p;
        p_remaining := p_remaining p - 1; p_register := p_register p + 1;
        p_resolution := p_resolution p |},
     QItem (p_register p) (p_resolution p))
  else if (p_size p <=? p_offset p)%nat then (p, QStop)
  else qscan (p_size p - p_offset p) p.

(** multiplex.py:253-256 parse(data): a list comprehension over the
    iterator.  An element is [None] when __next__ returned None. *)
Fixpoint qparse_loop (fuel : nat) (p : parser)
  : res (list (option (Z * resolution))) :=
  match fuel with
  | O => Raise Diverges
  | S fuel =>
      match qnext_step p with
      | (_, QStop) => Ok []
      | (_, QRaise e) => Raise e
      | (p, QItem reg r) =>
          let* l := qparse_loop fuel p in Ok (Some (reg, r) :: l)
      | (p, QNone) => let* l := qparse_loop fuel p in Ok (None :: l)
      end
  end.

(** ** WriteFrame, multiplex.py:309-353.  The writer is the list of bytes
    written so far to its buffer; size() is its length (nothing else is
    written to the buffer while the writer is in use, except the payload
    of make_diagnostic_write, which comes last). *)
Definition writer := list Z.

(** multiplex.py:320-322 *)
Definition w_write (w : writer) (v : pyval) (r : resolution) : res writer :=
  let* b := pack r v in Ok (w ++ b).

(** multiplex.py:324-338 *)
Definition write_int8 (w : writer) (z : Z) : res writer := w_write w (PInt z) INT8.
Definition write_int32 (w : writer) (z : Z) : res writer := w_write w (PInt z) INT32.
Definition write_f32 (w : writer) (x : float) : res writer := w_write w (PFloat x) F32.

(** multiplex.py:340-349 write_varuint: the `while True` loop with fuel;
    None when the fuel runs out. *)
Fixpoint varuint_loop (fuel : nat) (value : Z) : option (list Z) :=
  match fuel with
  | O => None
  | S fuel =>
      let this_byte := Z.land value 0x7f in
      let value := Z.shiftr value 7 in
      let this_byte := Z.lor this_byte (if value =? 0 then 0 else 0x80) in
      if value =? 0 then Some [this_byte]
      else match varuint_loop fuel value with
           | Some l => Some (this_byte :: l)
           | None => None
           end
  end.

Definition varuint_fuel (value : Z) : nat := S (Z.to_nat (Z.log2 value)).

Definition write_varuint (w : writer) (value : Z) : res writer :=
  match varuint_loop (varuint_fuel value) value with
  | Some l => Ok (w ++ l)
  | None => Raise Diverges
  end.

(** multiplex.py:351-353 write_mapped *)
Definition write_mapped (w : writer) (value : float) (s : scales) (r : resolution)
  : res writer :=
  match r with
  | IGNORE => Raise IndexError
  | _ => let* v := saturate value r (scale_at s r) in w_write w v r
  end.

(** ** WriteCombiner, multiplex.py:356-419 *)

Record combiner := {
  c_writer : writer;
  c_base : Z;
  c_start : Z;
  c_resolutions : list resolution;
  c_reply_size : Z;
  c_offset : nat;
  c_current : option resolution   (* None is the initial -1 *)
}.

(** multiplex.py:362-369 *)
Definition combiner_init (w : writer) (base start : Z) (rs : list resolution) : combiner :=
  {| c_writer := w; c_base := base; c_start := start; c_resolutions := rs;
     c_reply_size := 0; c_offset := 0; c_current := None |}.

(** multiplex.py:392-398: how far the new resolution goes on. *)
Fixpoint leading (r : resolution) (l : list resolution) : Z :=
  match l with
  | x :: l => if res_eqb x r then 1 + leading r l else 0
  | [] => 0
  end.

(** multiplex.py:374-419 maybe_write *)
Definition maybe_write (c : combiner) : res (combiner * bool) :=
  match nth_error (c_resolutions c) (c_offset c) with
  | None => Raise IndexError
  | Some this_res =>
      let mk w rs cur :=
        {| c_writer := w; c_base := c_base c; c_start := c_start c;
           c_resolutions := c_resolutions c; c_reply_size := rs;
           c_offset := S (c_offset c); c_current := cur |} in
      let same := match c_current c with Some x => res_eqb x this_res | None => false end in
      if same then
        Ok (mk (c_writer c) (c_reply_size c) (c_current c), negb (res_eqb this_res IGNORE))
      else if res_eqb this_res IGNORE then
        Ok (mk (c_writer c) (c_reply_size c) (Some IGNORE), false)
      else
        let count := 1 + leading this_res (skipn (S (c_offset c)) (c_resolutions c)) in
        let write_command := Z.lor (4 * res_code this_res) (c_base c) in
        let start_size := Z.of_nat (length (c_writer c)) in
        let* w :=
          (if count <=? 3 then write_int8 (c_writer c) (write_command + count)
           else let* w := write_int8 (c_writer c) write_command in write_int8 w count) in
        let* w := write_varuint w (c_start c + Z.of_nat (c_offset c)) in
        let end_size := Z.of_nat (length w) in
        Ok (mk w (c_reply_size c + (end_size - start_size)
                  + count * Z.of_nat (resolution_size this_res))
               (Some this_res), true)
  end.

(** multiplex.py:253-256 QueryParser.parse.  The fuel bounds the number of
    __next__ calls: a subframe takes at least two bytes and announces at
    most 255 registers. *)
Definition query_parse (data : list Z) : res (list (option (Z * resolution))) :=
  qparse_loop (256 * (length data + 1)) (parser_init data).
