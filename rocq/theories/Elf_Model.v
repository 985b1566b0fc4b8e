(** Model of the reading of a firmware image by moteus_tool
    (/repo/lib/python/moteus/moteus_tool.py 566-646).  Parsing the bytes of
    the ELF file is pyelftools' and not modelled: an ELF file is given by what
    pyelftools finds in it. *)
From Coq Require Import String ZArith List Bool.
From Verif Require Import PyBase PyBytes Mux_Model Flash_Model.
Import ListNotations.
Open Scope Z_scope.
Open Scope py_scope.

(** A program header: p_vaddr, p_paddr, p_memsz. *)
Record segment := { g_vaddr : Z; g_paddr : Z; g_memsz : Z }.

(** A section: its name, sh_addr, sh_size and data(). *)
Record section := { s_name : list Z; s_addr : Z; s_size : Z; s_data : list Z }.

(** A symbol: st_size, st_value, and st_shndx, which is the index of a
    section or, for the special values, a string ([None]). *)
Record symbol := { y_name : list Z; y_size : Z; y_value : Z; y_shndx : option nat }.

(** An ELF file; [e_symtab] is None when there is no section .symtab. *)
Record elf := {
  e_segments : list segment; e_sections : list section; e_symtab : option (list symbol) }.

(** ElfMappings.logical_to_physical (moteus_tool.py 572-589) *)
Fixpoint logical_to_physical (mappings : list segment) (address size : Z) : res Z :=
  match mappings with
  | [] => Raise RuntimeError
  | g :: mappings =>
      if (address >=? g_vaddr g) && (address + size <=? g_vaddr g + g_memsz g)
      then Ok (address - g_vaddr g + g_paddr g)
      else logical_to_physical mappings address size
  end.

(** sections[physical_address] = data (moteus_tool.py 616): a dict in insertion order *)
Fixpoint put_section (d : list block) (k : Z) (v : list Z) : list block :=
  match d with
  | [] => [(k, v)]
  | (k', v') :: d => if k' =? k then (k', v) :: d else (k', v') :: put_section d k v
  end.

(** The loop over fp.iter_sections() (moteus_tool.py 602-616); [to_find] is the set
    sections_to_find. *)
Fixpoint find_sections (mappings : list segment) (l : list section) (to_find : list (list Z))
  (d : list block) : res (list block) :=
  match l with
  | [] => Ok d
  | s :: l =>
      if negb (existsb (bytes_eqb (s_name s)) to_find) then find_sections mappings l to_find d
      else
        let to_find := filter (fun n => negb (bytes_eqb (s_name s) n)) to_find in
        let* physical_address := logical_to_physical mappings (s_addr s) (s_size s) in
        find_sections mappings l to_find (put_section d physical_address (s_data s))
  end.

(** sorted(sections.keys()), each with its data (moteus_tool.py 618-622); the keys of a dict
    are distinct *)
Fixpoint insert_block (b : block) (l : list block) : list block :=
  match l with
  | [] => [b]
  | c :: l => if fst b <=? fst c then b :: c :: l else c :: insert_block b l
  end.
Definition sort_blocks (l : list block) : list block := fold_right insert_block [] l.

(** data[a:a+4] for any int a *)
Definition slice4 (l : list Z) (a : Z) : list Z :=
  let clamp i := if i <? 0 then Z.max 0 (i + Z.of_nat (length l)) else i in
  slice l (Z.to_nat (clamp a)) (Z.to_nat (clamp (a + 4))).

(** The version (moteus_tool.py 624-644).  get_symbol_by_name gives the
    list of the symbols of that name, or None when there are none.  The index
    of a section that is not there is outside the model. *)
Definition firmware_version (e : elf) : res Z :=
  match e_symtab e with
  | None => Ok 0x00000100
  | Some symtab =>
      match filter (fun y => bytes_eqb (y_name y) (lit "kMoteusFirmwareVersion")) symtab with
      | [] => Ok 0x00000100
      | version :: _ =>
          if negb (y_size version =? 4) then Raise RuntimeError
          else
            match y_shndx version with
            | None => Raise TypeError
            | Some i =>
                match nth_error (e_sections e) i with
                | None => Raise Unmodelled
                | Some sec =>
                    let b := slice4 (s_data sec) (y_value version - s_addr sec) in
                    if (length b =? 4)%nat then Ok (unpack_int 4 b) else Raise StructError
                end
            end
      end
  end.

(** _read_elf (moteus_tool.py 597-646): sections and firmware_version *)
Definition read_elf (e : elf) (names : list (list Z)) : res (list block * Z) :=
  let* d := find_sections (e_segments e) (e_sections e) names [] in
  let* version := firmware_version e in
  Ok (sort_blocks d, version).

(** The sections do_flash asks for (moteus_tool.py 868-869) *)
Definition flash_sections : list (list Z) :=
  map lit [".text"; ".ARM.extab"; ".ARM.exidx"; ".data"; ".ccmram"; ".isr_vector"]%string.
