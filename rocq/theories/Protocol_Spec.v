(** The wire protocol as docs/reference.md describes it (lines 417-503),
    written independently of the Python code: a frame is decoded into the
    list of register accesses it asks for.  Used to state what the
    frames built by the library mean. *)
From Coq Require Import ZArith List Bool.
From Coq Require Import Floats.SpecFloat.
From Verif Require Import PyBase PyFloat Mux_Model.
Import ListNotations.
Open Scope Z_scope.

(** docs/reference.md:425-429: least significant group of 7 bits first,
    the top bit set on every byte but the last, at most 5 bytes. *)
Fixpoint spec_varuint_n (n : nat) (l : list Z) : option (Z * list Z) :=
  match n, l with
  | S n, b :: l =>
      if b <? 128 then Some (b, l)
      else match spec_varuint_n n l with
           | Some (v, l') => Some ((b - 128) + 128 * v, l')
           | None => None
           end
  | _, _ => None
  end.
Definition spec_varuint (l : list Z) : option (Z * list Z) := spec_varuint_n 5 l.

(** docs/reference.md:417-430: value of a register as carried by the
    frame; signed little endian integers and binary32 numbers. *)
Definition spec_width (r : resolution) : nat :=
  match r with INT8 => 1 | INT16 => 2 | INT32 | F32 => 4 | IGNORE => 0 end%nat.

Definition spec_signed (bits v : Z) : Z :=
  if v <? 2 ^ (bits - 1) then v else v - 2 ^ bits.

Definition spec_value (r : resolution) (raw : list Z) : pyval :=
  match r with
  | INT8 => PInt (spec_signed 8 (le_value raw))
  | INT16 => PInt (spec_signed 16 (le_value raw))
  | INT32 => PInt (spec_signed 32 (le_value raw))
  | _ => PFloat (f32_of_bits (le_value raw))
  end.

Inductive access :=
| AWrite (reg : Z) (r : resolution) (v : pyval)
| ARead (reg : Z) (r : resolution)
| AReply (reg : Z) (r : resolution) (v : pyval).

Inductive akind := KWrite | KRead | KReply.

(** n values of resolution r for registers reg, reg+1, ... *)
Fixpoint spec_values (k : akind) (r : resolution) (n : nat) (reg : Z) (l : list Z)
  : option (list access * list Z) :=
  match n with
  | O => Some ([], l)
  | S n =>
      let w := match k with KRead => 0%nat | _ => spec_width r end in
      if (length l <? w)%nat then None
      else
        let v := spec_value r (firstn w l) in
        let a := match k with
                 | KWrite => AWrite reg r v
                 | KRead => ARead reg r
                 | KReply => AReply reg r v
                 end in
        match spec_values k r n (reg + 1) (skipn w l) with
        | Some (acc, l') => Some (a :: acc, l')
        | None => None
        end
  end.

Definition spec_resolution (c : Z) : resolution :=
  if c =? 0 then INT8 else if c =? 1 then INT16 else if c =? 2 then INT32 else F32.

(** docs/reference.md:474-503: subframes 0x00-0x0f write, 0x10-0x1f read,
    0x20-0x2f reply (bits 2-3 the type, bits 0-1 the count, or 0 and a
    varuint count follows), 0x50 NOP.  None: not a sequence of these. *)
Fixpoint spec_decode_n (fuel : nat) (l : list Z) : option (list access) :=
  match fuel with
  | O => match l with [] => Some [] | _ => None end
  | S fuel =>
      match l with
      | [] => Some []
      | c :: l =>
          if c =? 0x50 then spec_decode_n fuel l
          else if (0 <=? c) && (c <? 0x30) then
            let k := if c <? 0x10 then KWrite else if c <? 0x20 then KRead else KReply in
            let r := spec_resolution ((c / 4) mod 4) in
            let counted :=
              if c mod 4 =? 0 then spec_varuint l else Some (c mod 4, l) in
            match counted with
            | None => None
            | Some (count, l) =>
                match spec_varuint l with
                | None => None
                | Some (reg, l) =>
                    match spec_values k r (Z.to_nat count) reg l with
                    | None => None
                    | Some (acc, l) =>
                        match spec_decode_n fuel l with
                        | Some acc' => Some (acc ++ acc')
                        | None => None
                        end
                    end
                end
            end
          else None
      end
  end.
Definition spec_decode (l : list Z) : option (list access) := spec_decode_n (length l) l.

(** What the value of a command register must be on the wire, for the
    Python value [x] and the unit [scale] of an integer resolution: the
    float quotient, truncated and clamped to the symmetric range; the
    most negative integer stands for "not a number" (docs/reference.md,
    A.2.a).  For F32: x rounded to binary32. *)
Definition spec_max (r : resolution) : Z :=
  match r with INT8 => 2 ^ 7 - 1 | INT16 => 2 ^ 15 - 1 | _ => 2 ^ 31 - 1 end.

Definition spec_quantise (x : float) (r : resolution) (scale : float) : pyval :=
  match r with
  | F32 => PFloat (to_f32 x)
  | _ =>
      let m := spec_max r in
      PInt (if isfinite x then
              match fdiv x scale with
              | S754_infinity s => if s then - m else m
              | q => Z.max (- m) (Z.min m (ftrunc q))
              end
            else - m - 1)
  end.

(** ** Replies, docs/reference.md:488-494, as an encoding relation: NOPs
    anywhere, each subframe in the short form (count 1-3 in the two low
    bits) or the long form (count as a varuint byte of its own), the start
    register as any varuint, then the raw values. *)
Definition spec_code (r : resolution) : Z :=
  match r with INT8 => 0 | INT16 => 1 | INT32 => 2 | F32 => 3 | IGNORE => 4 end.

Definition is_varuint (bytes : list Z) (v : Z) : Prop :=
  bytes_ok bytes /\ forall rest, spec_varuint (bytes ++ rest) = Some (v, rest).

Fixpoint numbered (reg : Z) (r : resolution) (vals : list (list Z))
  : list (Z * resolution * list Z) :=
  match vals with
  | [] => []
  | v :: vals => (reg, r, v) :: numbered (reg + 1) r vals
  end.

Definition reply_header (long : bool) (r : resolution) (n : Z) : list Z :=
  if long then [0x20 + 4 * spec_code r; n] else [0x20 + 4 * spec_code r + n].

Inductive encodes_reply : list Z -> list (Z * resolution * list Z) -> Prop :=
| er_nil : encodes_reply [] []
| er_nop l a : encodes_reply l a -> encodes_reply (0x50 :: l) a
| er_sub (long : bool) r start vu vals l a :
    r <> IGNORE ->
    1 <= Z.of_nat (length vals) <= (if long then 127 else 3) ->
    is_varuint vu start ->
    Forall (fun v => bytes_ok v /\ length v = spec_width r) vals ->
    encodes_reply l a ->
    encodes_reply (reply_header long r (Z.of_nat (length vals)) ++ vu ++ concat vals ++ l)
                  (numbered start r vals ++ a).

(** The Python value of a raw register value: an int, or the float equal
    to the binary32 number. *)
Definition spec_python (r : resolution) (raw : list Z) : pyval :=
  match spec_value r raw with PFloat y => PFloat (of_f32 y) | v => v end.

(** The size of the reply to a frame: each read subframe is answered by a
    reply subframe with a header of the same length (command, count if it
    has its own byte, start register) and then the values
    (docs/reference.md:480-494). *)
Fixpoint spec_reply_size_n (fuel : nat) (l : list Z) : option Z :=
  match fuel with
  | O => match l with [] => Some 0 | _ => None end
  | S fuel =>
      match l with
      | [] => Some 0
      | c :: l0 =>
          if c =? 0x50 then spec_reply_size_n fuel l0
          else if (0 <=? c) && (c <? 0x30) then
            let k := if c <? 0x10 then KWrite else if c <? 0x20 then KRead else KReply in
            let r := spec_resolution ((c / 4) mod 4) in
            match (if c mod 4 =? 0 then spec_varuint l0 else Some (c mod 4, l0)) with
            | None => None
            | Some (count, l1) =>
                match spec_varuint l1 with
                | None => None
                | Some (reg, l2) =>
                    match spec_values k r (Z.to_nat count) reg l2 with
                    | None => None
                    | Some (_, l3) =>
                        match spec_reply_size_n fuel l3 with
                        | Some s =>
                            Some (s + match k with
                                      | KRead => Z.of_nat (length l) - Z.of_nat (length l2)
                                                 + count * Z.of_nat (spec_width r)
                                      | _ => 0
                                      end)
                        | None => None
                        end
                    end
                end
            end
          else None
      end
  end.
Definition spec_reply_size (l : list Z) : option Z := spec_reply_size_n (length l) l.
