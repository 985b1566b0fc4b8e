(** Model of the flashing part of moteus_tool
    (/repo/lib/python/moteus/moteus_tool.py 663-709, 911-913, 927-960) and of
    the bootloader it talks to (/repo/fw/can_bootloader.cc). *)
From Coq Require Import Ascii String ZArith List Bool.
From Verif Require Import PyBase PyBytes Async Fdcanusb_Model.
Import ListNotations.
Open Scope Z_scope.

(** ** FlashContext *)

(** moteus_tool.py 39 *)
Definition MAX_FLASH_BLOCK_SIZE : Z := 32.

(** FlashDataBlock (moteus_tool.py 663-666): address and data. *)
Definition block : Type := Z * list Z.

(** FlashContext.get_next_block (moteus_tool.py 674-690).  [elf] is the list of sections,
    [cur] is current_address. *)
Fixpoint get_next_block (elf : list block) (cur : Z) : block :=
  match elf with
  | [] => (-1, [])
  | (address, data) :: elf =>
      if address >? cur then (address, firstn (Z.to_nat MAX_FLASH_BLOCK_SIZE) data)
      else
        let end_of_this_block := address + Z.of_nat (List.length data) in
        if end_of_this_block >? cur then
          let b := cur - address in
          let e := Z.min (end_of_this_block - cur) MAX_FLASH_BLOCK_SIZE in
          (cur, slice data (Z.to_nat b) (Z.to_nat (b + e)))
        else get_next_block elf cur
  end.

(** FlashContext.advance_block (moteus_tool.py 692-695): the new current_address and whether
    that was all. *)
Definition advance_block (elf : list block) (cur : Z) : Z * bool :=
  let this_block := get_next_block elf cur in
  let cur := fst this_block + Z.of_nat (List.length (snd this_block)) in
  (cur, fst (get_next_block elf cur) <? 0).

(** ** Text *)

(** bytes.hex() *)
Definition bytes_hex (d : list Z) : list Z := List.concat (map (hex_digits false 2) d).
(** f"{z:x}" *)
Definition hexa (z : Z) : list Z := format_hex false 0 z.

(** str.isspace of a latin1 character *)
Definition str_space (c : Z) : bool :=
  is_space c || ((28 <=? c) && (c <=? 31)) || (c =? 0x85) || (c =? 0xa0).
Fixpoint str_drop (l : list Z) : list Z :=
  match l with c :: l' => if str_space c then str_drop l' else l | [] => [] end.
(** str.strip(), str.lower() *)
Definition str_strip (l : list Z) : list Z := rev (str_drop (rev (str_drop l))).
Definition str_lower (l : list Z) : list Z :=
  map (fun c => if ((65 <=? c) && (c <=? 90)) || ((0xc0 <=? c) && (c <=? 0xde) && negb (c =? 0xd7))
                then c + 32 else c) l.
(** int(s, 16) of a latin1 str (Objects/unicodeobject.c,
    _PyUnicode_TransformDecimalAndSpaceToASCII): white space above 127 counts as a
    blank, below it only what C calls white space. *)
Definition str_int16 (s : list Z) : res Z :=
  int16 (map (fun c => if (c =? 0x85) || (c =? 0xa0) then 32 else c) s).

(** _verify_blocks (moteus_tool.py 698-709); decode('latin1') is the identity on
    code points. *)
Definition verify_blocks (expected : block) (message : list Z) : res unit :=
  match split_on 32 message with
  | [f0; f1] =>
      let* actual_address := str_int16 f0 in
      if negb (actual_address =? fst expected) then Raise RuntimeError
      else
        let actual_data := str_lower (str_strip f1) in
        if negb (bytes_eqb (bytes_hex (snd expected)) actual_data) then Raise RuntimeError
        else Ok tt
  | _ => Raise RuntimeError
  end.

(** ** write_flash.  What is awaited is Stream.command: the text and whether any
    response is allowed; the result is what command returns (C21).  Progress
    output is left out. *)
Definition creq : Type := list Z * bool.
Notation FP := (prog unit creq (list Z)).

Definition w_cmd (b : block) : list Z := lit "w " ++ hexa (fst b) ++ [32] ++ bytes_hex (snd b).
Definition r_cmd (b : block) : list Z :=
  lit "r " ++ hexa (fst b) ++ [32] ++ hexa (Z.of_nat (List.length (snd b))).

(** Stream.write_flash (moteus_tool.py 927-960) *)
Definition write_flash (elfs : list block) : FP unit :=
  do next_block <- Loop (fun cur : Z =>
    let next_block := get_next_block elfs cur in
    do _ <- await (w_cmd next_block, false);
    let '(cur, done) := advance_block elfs cur in
    if done then Ret (inr next_block) else Ret (inl cur)) (-1) Ret;
  let final_address := fst next_block + Z.of_nat (List.length (snd next_block)) in
  let remaining_to_flush := 8 - Z.land final_address 0x07 in
  do _ <- (if negb (remaining_to_flush =? 0)
           then await (lit "w " ++ hexa final_address ++ [32] ++
                       List.concat (repeat (lit "ff") (Z.to_nat remaining_to_flush)), false)
           else Ret []);
  Loop (fun cur : Z =>
    let expected_block := get_next_block elfs cur in
    do result <- await (r_cmd expected_block, true);
    do _ <- lift (verify_blocks expected_block result);
    let '(cur, done) := advance_block elfs cur in
    if done then Ret (inr tt) else Ret (inl cur)) (-1) Ret.

(** The middle of Stream.do_flash (moteus_tool.py 911-913).  Left out: reading the
    ELF file, entering the bootloader, the reset and the configuration. *)
Definition flash_image (elfs : list block) : FP unit :=
  do _ <- await (lit "unlock", false);
  do _ <- write_flash elfs;
  do _ <- await (lit "lock", false);
  Ret tt.

(** ** The bootloader *)

(** FlashWriter's members (can_bootloader.cc 284-288) and the memory.  shadow_ and
    shadow_bits_ are lists of 8 bytes and flags. *)
Record boot := {
  bt_locked : bool;
  bt_start : Z;                (* shadow_start_ *)
  bt_shadow : list Z;
  bt_bits : list bool;
  bt_erased : Z -> bool;       (* sectors_erased_ *)
  bt_mem : Z -> Z
}.

(** As started: members as initialised, any memory. *)
Definition power_up (m : Z -> Z) : boot :=
  {| bt_locked := true; bt_start := 0; bt_shadow := repeat 0 8; bt_bits := repeat false 8;
     bt_erased := fun _ => false; bt_mem := m |}.

(** Unlock (can_bootloader.cc 123-150) *)
Definition bt_unlock (b : boot) : boot :=
  {| bt_locked := false; bt_start := bt_start b; bt_shadow := bt_shadow b; bt_bits := bt_bits b;
     bt_erased := fun _ => false; bt_mem := bt_mem b |}.

(** The sector of an address (MaybeEraseSector, can_bootloader.cc 224-236):
    banks of 128 sectors of 2048 bytes. *)
Definition sector (a : Z) : Z :=
  if a <? 0x08040000 then (a - 0x08000000) / 2048 else 128 + (a - 0x08040000) / 2048.

(** The flash memory itself (not in /repo; STM32G4 reference manual): erasing a
    sector sets its bytes to 0xff and always works; a double word can be
    programmed only if it is erased, otherwise there is an error and it keeps
    its value. *)
Definition hw_erase (s : Z) (m : Z -> Z) : Z -> Z :=
  fun a => if sector a =? s then 0xff else m a.
Definition word_at (m : Z -> Z) (a : Z) : list Z := map (fun i => m (a + Z.of_nat i)) (seq 0 8).
Definition hw_program (a : Z) (d : list Z) (m : Z -> Z) : (Z -> Z) * bool :=
  if bytes_eqb (word_at m a) (repeat 0xff 8)
  then ((fun x => if (a <=? x) && (x <? a + 8) then nth (Z.to_nat (x - a)) d 0 else m x), true)
  else (m, false).

(** FlushWord and MaybeEraseSector (can_bootloader.cc 190-244); false: an error. *)
Definition flush_word (b : boot) : boot * bool :=
  let s := sector (bt_start b) in
  let m := if bt_erased b s then bt_mem b else hw_erase s (bt_mem b) in
  let er := fun i => (i =? s) || bt_erased b i in
  let '(m, ok) := if bytes_eqb (word_at m (bt_start b)) (bt_shadow b) then (m, true)
                  else hw_program (bt_start b) (bt_shadow b) m in
  ({| bt_locked := bt_locked b; bt_start := 0; bt_shadow := repeat 0xff 8; bt_bits := repeat false 8;
      bt_erased := er; bt_mem := m |}, ok).

(** Lock (can_bootloader.cc 152-163) *)
Definition bt_lock (b : boot) : boot * bool :=
  if bt_locked b then (b, true)
  else
    let '(b, ok) := if existsb (fun x => x) (bt_bits b) then flush_word b else (b, true) in
    if ok then
      ({| bt_locked := true; bt_start := bt_start b; bt_shadow := bt_shadow b; bt_bits := bt_bits b;
          bt_erased := bt_erased b; bt_mem := bt_mem b |}, true)
    else (b, false).

(** ProgramByte (can_bootloader.cc 165-187) *)
Definition program_byte (a v : Z) (b : boot) : boot * bool :=
  let this_shadow := a - a mod 8 in
  let offset := Z.to_nat (a mod 8) in
  let '(b, ok) := if negb (this_shadow =? bt_start b) && negb (bt_start b =? 0)
                  then flush_word b else (b, true) in
  if ok then
    let b := {| bt_locked := bt_locked b; bt_start := this_shadow;
                bt_shadow := set_nth (bt_shadow b) offset v;
                bt_bits := set_nth (bt_bits b) offset true;
                bt_erased := bt_erased b; bt_mem := bt_mem b |} in
    if forallb (fun x => x) (bt_bits b) then flush_word b else (b, true)
  else (b, false).

(** WriteByte (can_bootloader.cc 698-726); the texts of the errors are left out. *)
Definition write_byte (a v : Z) (b : boot) : boot * bool :=
  if bt_locked b then (b, false)
  else if (a <? 0x08000000) || (a >=? 0x08080000) then (b, false)
  else if (a >=? 0x0800c000) && (a <? 0x08010000) then (b, false)
  else program_byte a v b.

(** The loop of WriteFlash (can_bootloader.cc 683-689) *)
Fixpoint write_bytes (a : Z) (d : list Z) (b : boot) : boot * bool :=
  match d with
  | [] => (b, true)
  | v :: d =>
      let '(b, ok) := write_byte a v b in
      if ok then write_bytes (a + 1) d b else (b, false)
  end.

(** hex_to_i (can_bootloader.cc 58-70) *)
Definition hex_to_i (l : list Z) : Z :=
  fold_left (fun r c => Z.lor (Z.shiftl r 4 mod 2 ^ 32)
    (match digit_value c with Some v => v | None => 0 end)) l 0.
(** Two characters at a time (can_bootloader.cc 682-685) *)
Fixpoint hex_pairs (l : list Z) : list Z :=
  match l with
  | x :: y :: l => (hex_to_i [x; y]) mod 256 :: hex_pairs l
  | _ => []
  end.
(** uint8_hex, uint32_hex (can_bootloader.cc 42-53) *)
Definition u8_hex (v : Z) : list Z := [hex_char true (v / 16 mod 16); hex_char true (v mod 16)].
Definition u32_hex (v : Z) : list Z :=
  u8_hex (v / 2 ^ 24 mod 256) ++ u8_hex (v / 2 ^ 16 mod 256) ++ u8_hex (v / 2 ^ 8 mod 256) ++
  u8_hex (v mod 256).

(** Tokenizer::next with the delimiters " \r\n" (mjlib; the same code is in
    /repo/lib/cpp/mjbots/moteus/moteus_tokenizer.h 31-47) *)
Definition delimiter (c : Z) : bool := (c =? 32) || (c =? 13) || (c =? 10).
Fixpoint next_token (l : list Z) : list Z * list Z :=
  match l with
  | [] => ([], [])
  | c :: l => if delimiter c then ([], l) else let '(t, r) := next_token l in (c :: t, r)
  end.

Section Bootloader.
(** What the timer shows for a write. *)
Variable elapsed : boot -> Z.

(** RunCommand, ReadFlash and WriteFlash (can_bootloader.cc 583-696) on one command: the line sent back,
    without its end.  Modelled: unlock, lock, w and r; other commands give an
    error here. *)
Definition run_command (cmd : list Z) (b : boot) : boot * list Z :=
  let '(t0, l) := next_token cmd in
  if bytes_eqb t0 (lit "unlock") then (bt_unlock b, lit "OK")
  else if bytes_eqb t0 (lit "lock") then
    let '(b, ok) := bt_lock b in (b, if ok then lit "OK" else lit "ERR error locking")
  else if bytes_eqb t0 (lit "w") then
    let '(address, l) := next_token l in
    let '(data, _) := next_token l in
    match address, data with
    | [], _ | _, [] => (b, lit "ERR malformed write")
    | _, _ =>
        if negb (Nat.eqb (Nat.modulo (List.length data) 2) 0) then (b, lit "odd data size")
        else
          let '(b', ok) := write_bytes (hex_to_i address) (hex_pairs data) b in
          (b', if ok then lit "OK " ++ u32_hex (elapsed b) else lit "ERR")
    end
  else if bytes_eqb t0 (lit "r") then
    let '(address, l) := next_token l in
    let '(size, _) := next_token l in
    match address, size with
    | [], _ | _, [] => (b, lit "ERR malformed read")
    | _, _ =>
        if hex_to_i size >? 32 then (b, lit "size too big")
        else (b, u32_hex (hex_to_i address) ++ [32] ++
                 List.concat (map (fun i => u8_hex (bt_mem b (hex_to_i address + Z.of_nat i)))
                                  (seq 0 (Z.to_nat (hex_to_i size)))))
    end
  else (b, lit "ERR unknown command").

(** What Stream.command gives for a line sent back ended by "\r\n"
    (moteus.py 1517-1542).  A line that is neither OK nor ERR would be followed by
    another wait, which nothing answers. *)
Definition command_result (any : bool) (line : list Z) : res (list Z) :=
  if any then Ok (rstrip line)
  else if startswith (lit "OK") line then Ok []
  else if startswith (lit "ERR") line then Raise CommandError
  else Raise Diverges.

(** A series of commands. *)
Fixpoint boot_run (b : boot) (qs : list creq) : boot * list (res (list Z)) :=
  match qs with
  | [] => (b, [])
  | (cmd, any) :: qs =>
      let '(b, line) := run_command (cmd ++ [LF]) b in
      let '(b, rs) := boot_run b qs in
      (b, command_result any line :: rs)
  end.
End Bootloader.
