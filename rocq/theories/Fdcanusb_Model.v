(** Model of the fdcanusb transport (/repo/lib/python/moteus/fdcanusb.py).
    Left out: finding the serial port and the debug log. *)
From Coq Require Import Ascii String ZArith List Bool.
From Verif Require Import PyBase PyBytes Ctrl_Model Async.
Import ListNotations.
Open Scope Z_scope.
Open Scope py_scope.

(** ** Text of numbers *)

(** One hexadecimal digit, as '{:x}' ([upper = false]) and '{:X}' write it. *)
Definition hex_char (upper : bool) (d : Z) : Z :=
  if d <? 10 then 48 + d else (if upper then 55 else 87) + d.

(** The last [n] hexadecimal digits of [z]. *)
Fixpoint hex_digits (upper : bool) (n : nat) (z : Z) : list Z :=
  match n with
  | O => []
  | S n => hex_digits upper n (z / 16) ++ [hex_char upper (z mod 16)]
  end.

(** '{:0<width>x}'.format(z): at least [width] characters, zeroes after the
    sign. *)
Definition format_hex (upper : bool) (width : nat) (z : Z) : list Z :=
  let n := S (Z.to_nat (Z.log2 (Z.abs z) / 4)) in
  let digits := hex_digits upper n (Z.abs z) in
  if z <? 0 then 45 :: repeat 48 (width - 1 - n) ++ digits
  else repeat 48 (width - n) ++ digits.

(** fdcanusb.py 27-28 _hexify *)
Definition hexify (data : list Z) : list Z :=
  List.concat (map (fun x => format_hex true 2 x) data).

(** The value of a hexadecimal digit. *)
Definition digit_value (c : Z) : option Z :=
  if (48 <=? c) && (c <=? 57) then Some (c - 48)
  else if (65 <=? c) && (c <=? 70) then Some (c - 55)
  else if (97 <=? c) && (c <=? 102) then Some (c - 87)
  else None.

(** The digits of int(s, 16): single underscores are allowed between
    digits.  [prev]: the last character was an underscore.  Gives the value
    and what is left. *)
Fixpoint int_digits (prev : bool) (acc : Z) (l : list Z) : option (Z * list Z) :=
  match l with
  | [] => if prev then None else Some (acc, [])
  | c :: l' =>
      match digit_value c with
      | Some v => int_digits false (acc * 16 + v) l'
      | None =>
          if c =? 95 then (if prev then None else int_digits true acc l')
          else if prev then None else Some (acc, l)
      end
  end.

(** int(s, 16) of bytes, as CPython does it (Objects/longobject.c,
    PyLong_FromString): white space around, a sign, 0x, underscores. *)
Definition int16 (s : list Z) : res Z :=
  let s := drop_space s in
  let '(neg, s) :=
    match s with
    | c :: s' => if c =? 43 then (false, s') else if c =? 45 then (true, s') else (false, s)
    | [] => (false, s)
    end in
  let s :=
    match s with
    | z :: x :: s' =>
        if (z =? 48) && ((x =? 120) || (x =? 88)) then
          match s' with u :: s'' => if u =? 95 then s'' else s' | [] => s' end
        else s
    | _ => s
    end in
  match s with
  | c :: _ =>
      match digit_value c with
      | None => Raise ValueError
      | Some _ =>
          match int_digits false 0 s with
          | Some (v, rest) =>
              match drop_space rest with
              | [] => Ok (if neg then - v else v)
              | _ => Raise ValueError
              end
          | None => Raise ValueError
          end
      end
  | [] => Raise ValueError
  end.

(** bytes([v]) *)
Definition one_byte (v : Z) : res (list Z) :=
  if byte_okb v then Ok [v] else Raise ValueError.

(** fdcanusb.py 31-35 _dehexify *)
Fixpoint dehexify (data : list Z) : res (list Z) :=
  match data with
  | [] => Ok []
  | [a] => let* v := int16 [a] in one_byte v
  | a :: b :: rest =>
      let* v := int16 [a; b] in
      let* x := one_byte v in
      let* d := dehexify rest in
      Ok (x ++ d)
  end.

(** CanMessage (fdcanusb.py 38-44): the two attributes that are set. *)
Record message := { m_arbitration_id : Z; m_data : list Z }.

(** fdcanusb.py 210-227 _round_up_dlc *)
Definition round_up_dlc (size : Z) : Z :=
  if size <=? 8 then size
  else if size <=? 12 then 12
  else if size <=? 16 then 16
  else if size <=? 20 then 20
  else if size <=? 24 then 24
  else if size <=? 32 then 32
  else if size <=? 48 then 48
  else if size <=? 64 then 64
  else size.

(** fdcanusb.py 175-181 *)
Definition bus_id (c : command) : Z :=
  if cmd_raw c then cmd_arbitration_id c
  else Z.lor (Z.lor (cmd_destination c) (if cmd_reply_required c then 0x8000 else 0))
             (Z.shiftl (cmd_can_prefix c) 16).

(** fdcanusb.py 182-186: the line written.  [disable_brs] as given to the
    constructor (66-67). *)
Definition send_line (disable_brs : bool) (c : command) : list Z :=
  let size := Z.of_nat (List.length (cmd_data c)) in
  let on_wire_size := round_up_dlc size in
  let hexdata := hexify (cmd_data c) ++
                 List.concat (repeat (lit "50") (Z.to_nat (on_wire_size - size))) in
  lit "can send " ++ format_hex false 4 (bus_id c) ++ [32] ++ hexdata ++
  (if disable_brs then lit " b" else []) ++ [LF].

(** fdcanusb.py 160-163 and 204-207: the message of a 'rcv' line. *)
Definition parse_rcv (line : list Z) : res message :=
  let fields := split_on 32 line in
  match nth_error fields 2 with
  | None => Raise IndexError
  | Some f2 =>
      let* data := dehexify f2 in
      match nth_error fields 1 with
      | None => Raise IndexError
      | Some f1 =>
          let* id := int16 f1 in
          Ok {| m_arbitration_id := id; m_data := data |}
      end
  end.

(** ** The coroutines

    The state is _stream_data.  What is awaited: writing a line to the serial
    port until it is drained (187, 191), and reading what is available (92);
    see Aioserial_Model for the port itself. *)
Inductive freq := SerialWrite (data : list Z) | SerialRead.
Notation F := (prog (list Z) freq (list Z)).

(** fdcanusb.py 79-92 _readline.  The [+=] on line 92 reads the attribute
    before the await and assigns it after. *)
Definition can_readline : F (list Z) :=
  Loop (fun _ : unit =>
    Get (fun stream_data =>
      match find_newline stream_data with
      | Some offset =>
          Put (skipn (offset + 1) stream_data)
            (if (0 <? offset)%nat then Ret (inr (firstn (offset + 1) stream_data))
             else Ret (inl tt))
      | None =>
          do data <- await SerialRead;
          Put (stream_data ++ data) (Ret (inl tt))
      end))
    tt Ret.

Section Commands.
Context {V : Type}.
Variable disable_brs : bool.

(** A moteus.Command: its fields and its parse method (command.py). *)
Record can_command := { cc : command; cc_parse : message -> res V }.

(** fdcanusb.py 171-191 write *)
Definition can_write (c : can_command) : F unit :=
  do _ <- await (SerialWrite (send_line disable_brs (cc c)));
  Ret tt.

(** fdcanusb.py 139-169 _do_command *)
Definition do_command (c : can_command) : F (option V) :=
  do _ <- can_write c;
  do ok_response <- can_readline;
  if negb (startswith (lit "OK") ok_response) then Throw RuntimeError
  else if cmd_reply_required (cc c) then
    do line <- can_readline;
    if negb (startswith (lit "rcv") line) then Throw RuntimeError
    else
      do m <- lift (parse_rcv line);
      do v <- lift (cc_parse c m);
      Ret (Some v)
  else Ret None.

(** The body of cycle: fdcanusb.py 137 *)
Fixpoint do_commands (cs : list can_command) : F (list (option V)) :=
  match cs with
  | [] => Ret []
  | c :: cs =>
      do r <- do_command c;
      do rs <- do_commands cs;
      Ret (r :: rs)
  end.

(** fdcanusb.py 123-137 cycle *)
Definition can_cycle (cs : list can_command) : F (list (option V)) :=
  with_lock (do_commands cs).

(** fdcanusb.py 193-208 read *)
Definition can_read : F message :=
  Loop (fun _ : unit =>
    do line <- can_readline;
    if negb (startswith (lit "rcv") line) then Ret (inl tt)
    else do m <- lift (parse_rcv line); Ret (inr m))
    tt Ret.
End Commands.
