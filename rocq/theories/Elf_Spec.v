(** What it means for a section of an ELF file to be part of a firmware image,
    and where it goes. *)
From Coq Require Import String ZArith List.
From Verif Require Import PyBase PyBytes Elf_Model.
Import ListNotations.
Open Scope Z_scope.

(** [s] is the first section of [l] of its name, and the name is one of [names]. *)
Definition asked (names : list (list Z)) (l : list section) (s : section) : Prop :=
  exists before after, l = before ++ s :: after /\ In (s_name s) names /\
    forall s', In s' before -> s_name s' <> s_name s.

(** The segment holds all the addresses of the section. *)
Definition covers (g : segment) (s : section) : Prop :=
  g_vaddr g <= s_addr s /\ s_addr s + s_size s <= g_vaddr g + g_memsz g.

(** The physical address of the section, by the first segment that holds it. *)
Definition lies_at (segments : list segment) (s : section) (a : Z) : Prop :=
  exists before g after, segments = before ++ g :: after /\ covers g s /\
    (forall g', In g' before -> ~ covers g' s) /\
    a = g_paddr g + (s_addr s - g_vaddr g).

(** A section of the image, and its physical address. *)
Definition part_of (e : elf) (names : list (list Z)) (s : section) (a : Z) : Prop :=
  asked names (e_sections e) s /\ lies_at (e_segments e) s a.

(** A usable image: the parts are not empty, hold bytes, and do not overlap. *)
Record usable (e : elf) (names : list (list Z)) : Prop := {
  us_some : exists s a, part_of e names s a;
  us_byte : forall s a, part_of e names s a -> 0 <= a /\ s_data s <> [] /\ bytes_ok (s_data s);
  us_apart : forall s a s' a', part_of e names s a -> part_of e names s' a' -> s <> s' ->
    a + Z.of_nat (List.length (s_data s)) <= a' \/ a' + Z.of_nat (List.length (s_data s')) <= a }.

(** The first symbol of the name. *)
Definition first_symbol (name : list Z) (e : elf) (y : symbol) : Prop :=
  exists symbols before after, e_symtab e = Some symbols /\ symbols = before ++ y :: after /\
    y_name y = name /\ forall y', In y' before -> y_name y' <> name.
Definition no_symbol (name : list Z) (e : elf) : Prop :=
  forall symbols y, e_symtab e = Some symbols -> In y symbols -> y_name y <> name.

(** The little endian, two's complement number in four bytes. *)
Definition int32_of (b0 b1 b2 b3 v : Z) : Prop :=
  - 2 ^ 31 <= v < 2 ^ 31 /\ exists k, b0 + 2 ^ 8 * b1 + 2 ^ 16 * b2 + 2 ^ 24 * b3 = v + 2 ^ 32 * k.

(** The symbol has four bytes, at its address in its section; they hold [v]. *)
Definition holds_int32 (e : elf) (y : symbol) (v : Z) : Prop :=
  y_size y = 4 /\ exists i sec off b0 b1 b2 b3, y_shndx y = Some i /\ nth_error (e_sections e) i = Some sec /\
    y_value y = s_addr sec + Z.of_nat off /\
    nth_error (s_data sec) off = Some b0 /\ nth_error (s_data sec) (off + 1) = Some b1 /\
    nth_error (s_data sec) (off + 2) = Some b2 /\ nth_error (s_data sec) (off + 3) = Some b3 /\
    byte_ok b0 /\ byte_ok b1 /\ byte_ok b2 /\ byte_ok b3 /\ int32_of b0 b1 b2 b3 v.

(** The version of the image: what kMoteusFirmwareVersion holds, or 1.0 when
    there is no such symbol. *)
Definition version_name : list Z := lit "kMoteusFirmwareVersion".
Definition version_of (e : elf) (v : Z) : Prop :=
  (exists y, first_symbol version_name e y /\ holds_int32 e y v) \/
  (no_symbol version_name e /\ v = 0x0100).
