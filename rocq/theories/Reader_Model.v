(** Model of the telemetry reader (/repo/lib/python/moteus/reader.py). *)
From Coq Require Import Ascii String ZArith List Bool.
From Coq Require Import Floats.SpecFloat.
From Verif Require Import PyBase PyBytes PyFloat.
Import ListNotations.
Open Scope Z_scope.

(** A Python str: its code points. *)
Definition str := list Z.
Definition str_eqb (a b : str) : bool := if list_eq_dec Z.eq_dec a b then true else false.

(** ** bytes.decode('utf8') (Python's strict decoder) *)
Definition continuation (b : Z) : bool := (0x80 <=? b) && (b <=? 0xbf).

Fixpoint utf8_decode (l : list Z) : res str :=
  match l with
  | [] => Ok []
  | b0 :: l0 =>
      if b0 <? 0x80 then bind (utf8_decode l0) (fun s => Ok (b0 :: s))
      else if (0xc2 <=? b0) && (b0 <=? 0xdf) then
        match l0 with
        | b1 :: l1 =>
            if continuation b1 then
              bind (utf8_decode l1) (fun s => Ok ((b0 - 0xc0) * 64 + (b1 - 0x80) :: s))
            else Raise UnicodeError
        | _ => Raise UnicodeError
        end
      else if (0xe0 <=? b0) && (b0 <=? 0xef) then
        match l0 with
        | b1 :: b2 :: l2 =>
            let c := (b0 - 0xe0) * 4096 + (b1 - 0x80) * 64 + (b2 - 0x80) in
            if continuation b1 && continuation b2 && (0x800 <=? c) &&
               negb ((0xd800 <=? c) && (c <=? 0xdfff))
            then bind (utf8_decode l2) (fun s => Ok (c :: s))
            else Raise UnicodeError
        | _ => Raise UnicodeError
        end
      else if (0xf0 <=? b0) && (b0 <=? 0xf4) then
        match l0 with
        | b1 :: b2 :: b3 :: l3 =>
            let c := (b0 - 0xf0) * 262144 + (b1 - 0x80) * 4096 + (b2 - 0x80) * 64 + (b3 - 0x80) in
            if continuation b1 && continuation b2 && continuation b3 &&
               (0x10000 <=? c) && (c <=? 0x10ffff)
            then bind (utf8_decode l3) (fun s => Ok (c :: s))
            else Raise UnicodeError
        | _ => Raise UnicodeError
        end
      else Raise UnicodeError
  end.

(** struct.unpack('<d', b)[0]: binary64 bit patterns.  The sign and payload of a
    NaN are not kept. *)
Definition f64_of_bits (b : Z) : float :=
  let s := (2 ^ 63 <=? b mod 2 ^ 64) in
  let ex := (b / 2 ^ 52) mod 2048 in
  let m := b mod 2 ^ 52 in
  if ex =? 2047 then (if m =? 0 then S754_infinity s else S754_nan)
  else if ex =? 0 then
    match m with Zpos p => S754_finite s p (-1074) | _ => S754_zero s end
  else
    match m + 2 ^ 52 with Zpos p => S754_finite s p (ex - 1075) | _ => S754_nan end.

(** ** reader.py 20-54 _RESERVED_KEYWORDS *)
Definition reserved_keywords : list str := map lit
  ["False"; "None"; "True"; "and"; "as"; "assert"; "break"; "class"; "continue"; "def"; "del";
   "elif"; "else"; "except"; "finally"; "for"; "from"; "global"; "if"; "import"; "in"; "is";
   "lambda"; "nonlocal"; "not"; "or"; "pass"; "raise"; "return"; "try"; "while"; "with";
   "yield"]%string.

(** Python's own list (Lib/keyword.py, since 3.7). *)
Definition keyword_list : list str := map lit
  ["False"; "None"; "True"; "and"; "as"; "assert"; "async"; "await"; "break"; "class"; "continue";
   "def"; "del"; "elif"; "else"; "except"; "finally"; "for"; "from"; "global"; "if"; "import"; "in";
   "is"; "lambda"; "nonlocal"; "not"; "or"; "pass"; "raise"; "return"; "try"; "while"; "with";
   "yield"]%string.

Definition str_in (s : str) (l : list str) : bool := existsb (str_eqb s) l.

(** reader.py 57-60 *)
Definition escape_python3_identifier (name : str) : str :=
  if str_in name reserved_keywords then lit "py_" ++ name else name.

(** ** Values *)
Inductive value :=
| VNone
| VBool (b : bool)
| VInt (z : Z)
| VFloat (f : float)
| VBytes (b : list Z)
| VStr (s : str)
| VTuple (fields : list (str * value))      (* a namedtuple *)
| VEnum (name : option str) (z : Z)         (* None: a member made up for z *)
| VList (l : list value)
| VDict (l : list (str * value)).           (* in insertion order *)

(** d[k] = v *)
Fixpoint dict_put {A} (k : str) (v : A) (d : list (str * A)) : list (str * A) :=
  match d with
  | [] => [(k, v)]
  | (k', v') :: d => if str_eqb k k' then (k', v) :: d else (k', v') :: dict_put k v d
  end.
Definition dict_of {A} (l : list (str * A)) : list (str * A) :=
  fold_left (fun d kv => dict_put (fst kv) (snd kv) d) l [].

(** ** Types: the classes FinalType ... DurationType with their attributes *)
Record field_info := {
  fi_flags : Z;
  fi_name : str;
  fi_aliases : list str;
  fi_default : option value
}.
Inductive ty :=
| TFinal | TNull | TBool
| TInt (size : Z) | TUInt (size : Z) | TVarint | TVaruint | TF32 | TF64 | TBytes | TString
| TObject (flags : Z) (fields : list (field_info * ty))
| TEnum (name : str) (t : ty) (items : list (str * Z))
| TArray (t : ty)
| TFixedArray (size : Z) (t : ty)
| TMap (t : ty)
| TUnion (items : list ty)
| TTimestamp | TDuration.

(** ** Stream (reader.py 67-134).  The base is an io.BytesIO (moteus.py 1569,
    1584), given by the bytes that are left. *)
Definition parser (A : Type) : Type := list Z -> res (A * list Z).
Definition pret {A} (a : A) : parser A := fun l => Ok (a, l).
Definition pfail {A} (e : exn) : parser A := fun _ => Raise e.
Definition pseq {A B} (p : parser A) (f : A -> parser B) : parser B :=
  fun l => match p l with Ok (a, l') => f a l' | Raise e => Raise e end.
Notation "'let!' x ':=' p 'in' q" := (pseq p (fun x => q))
  (at level 200, x pattern, p at level 100, q at level 200).

(** io.BytesIO.read(size): fewer bytes when there are no more; OverflowError if
    size does not fit a Py_ssize_t. *)
Definition base_read (size : Z) : parser (list Z) := fun l =>
  if size >=? 2 ^ 63 then Raise OverflowError
  else Ok (firstn (Z.to_nat size) l, skipn (Z.to_nat size) l).

(** reader.py 74-93 read_varuint *)
Fixpoint varuint_loop (result fk : Z) (l : list Z) : res (Z * list Z) :=
  match l with
  | [] => Raise EOFError
  | value :: l =>
      let result := result + fk * Z.land value 0x7f in
      let fk := fk * 128 in
      if value <? 0x80 then Ok (result, l)
      else if result >=? 2 ^ 64 then Raise ParseError
      else varuint_loop result fk l
  end.
Definition read_varuint : parser Z := varuint_loop 0 1.

(** reader.py 95-101 *)
Definition read_bytes : parser (list Z) := let! size := read_varuint in base_read size.
Definition read_string : parser str :=
  let! d := read_bytes in
  match utf8_decode d with Ok s => pret s | Raise e => pfail e end.

(** reader.py 103-104 _read_format *)
Definition read_format {A} (size : nat) (unpack : list Z -> A) : parser A :=
  let! d := base_read (Z.of_nat size) in
  if Nat.eqb (List.length d) size then pret (unpack d) else pfail StructError.

Definition signed (size : nat) (v : Z) : Z :=
  if v <? 2 ^ (8 * Z.of_nat size - 1) then v else v - 2 ^ (8 * Z.of_nat size).

(** reader.py 106-134 *)
Definition read_unsigned (size : nat) : parser Z := read_format size le_value.
Definition read_signed (size : nat) : parser Z :=
  read_format size (fun d => signed size (le_value d)).
Definition read_f32 : parser float := read_format 4 unpack_f32.
Definition read_f64 : parser float := read_format 8 (fun d => f64_of_bits (le_value d)).

(** [p for _ in range(n)] *)
Fixpoint times {A} (n : nat) (p : parser A) : parser (list A) :=
  match n with
  | O => pret []
  | S n => let! x := p in let! l := times n p in pret (x :: l)
  end.

(** reader.py 175-185, 199-209: read by size *)
Definition read_sized (rd : nat -> parser Z) (size : Z) : parser value :=
  if size =? 1 then let! v := rd 1%nat in pret (VInt v)
  else if size =? 2 then let! v := rd 2%nat in pret (VInt v)
  else if size =? 4 then let! v := rd 4%nat in pret (VInt v)
  else if size =? 8 then let! v := rd 8%nat in pret (VInt v)
  else pfail AssertionError.

(** us / 1000000.0 (reader.py 418, 428): the int is converted to float first *)
Definition seconds (us : Z) : float := fdiv (float_of_Z us) (float_of_Z 1000000).

(** The member of enum_class for a value (reader.py 324-343): the first name with
    that value; otherwise _missing_ makes one up, whose name is str(value). *)
Definition enum_member (items : list (str * Z)) (z : Z) : option str :=
  match find (fun kv => snd kv =? z) items with Some kv => Some (fst kv) | None => None end.

(** The read methods. *)
Fixpoint read (t : ty) : parser value :=
  match t with
  | TFinal => pfail ParseError                                     (* reader.py 142-143 *)
  | TNull => pret VNone                                            (* 151-152 *)
  | TBool => let! b := read_unsigned 1 in pret (VBool (negb (b =? 0)))   (* 160-161 *)
  | TInt size => read_sized read_signed size                       (* 175-185 *)
  | TUInt size => read_sized read_unsigned size                    (* 199-209 *)
  | TVarint => pfail RuntimeError                                  (* 217-218 *)
  | TVaruint => let! v := read_varuint in pret (VInt v)            (* 226-227 *)
  | TF32 => let! f := read_f32 in pret (VFloat f)                  (* 235-236 *)
  | TF64 => let! f := read_f64 in pret (VFloat f)                  (* 244-245 *)
  | TBytes => let! b := read_bytes in pret (VBytes b)              (* 253-254 *)
  | TString => let! s := read_string in pret (VStr s)              (* 262-263 *)
  | TObject _ fields =>                                            (* 274-275, 305-306 *)
      let! l := (fix go (fs : list (field_info * ty)) : parser (list (str * value)) :=
                   match fs with
                   | [] => pret []
                   | (i, t) :: fs =>
                       let! v := read t in
                       let! l := go fs in
                       pret ((escape_python3_identifier (fi_name i), v) :: l)
                   end) fields in
      pret (VTuple l)
  | TEnum _ t items =>                                             (* 345-346 *)
      (* Simplification: only integers are followed as values of an enum. *)
      let! v := read t in
      match v with
      | VInt z => pret (VEnum (enum_member items z) z)
      | _ => pfail Unmodelled
      end
  | TArray t =>                                                    (* 357-359 *)
      let! n := read_varuint in
      let! l := times (Z.to_nat n) (read t) in pret (VList l)
  | TFixedArray size t =>                                          (* 372-373 *)
      let! l := times (Z.to_nat size) (read t) in pret (VList l)
  | TMap t =>                                                      (* 385-388 *)
      let! n := read_varuint in
      let! l := times (Z.to_nat n) (let! k := read_string in let! v := read t in pret (k, v)) in
      pret (VDict (dict_of l))
  | TUnion items =>                                                (* 406-408 *)
      let! index := read_varuint in
      (fix nth (ts : list ty) (i : nat) : parser value :=
         match ts, i with
         | [], _ => pfail IndexError
         | t :: _, O => read t
         | _ :: ts, S i => nth ts i
         end) items (Z.to_nat index)
  | TTimestamp | TDuration =>                                      (* 416-418, 426-428 *)
      let! us := read_signed 8 in pret (VFloat (seconds us))
  end.

(** ** Schemas *)

(** str.isidentifier for ASCII. *)
Definition ident_start (c : Z) : bool :=
  ((65 <=? c) && (c <=? 90)) || ((97 <=? c) && (c <=? 122)) || (c =? 95).
Definition ident_char (c : Z) : bool := ident_start c || ((48 <=? c) && (c <=? 57)).
Definition ascii_identifier (s : str) : bool :=
  match s with [] => false | c :: s => ident_start c && forallb ident_char s end.
Definition all_ascii (s : str) : bool := forallb (fun c => c <? 128) s.

Definition starts_with_underscore (s : str) : bool :=
  match s with c :: _ => c =? 95 | [] => false end.

(** collections.namedtuple('_', names): every name an identifier, not a keyword,
    not starting with an underscore, none twice.  Simplification: names that are
    not ASCII are not followed. *)
Fixpoint namedtuple_names (seen : list str) (names : list str) : res unit :=
  match names with
  | [] => Ok tt
  | n :: names =>
      if negb (all_ascii n) then Raise Unmodelled
      else if negb (ascii_identifier n) || str_in n keyword_list || starts_with_underscore n
              || str_in n seen
      then Raise ValueError
      else namedtuple_names (n :: seen) names
  end.

(** Enum(name, items) (reader.py 343) for an IntEnum without members: 'mro' and a
    class name with a null character are refused.  Simplification: member names
    that are empty or start with an underscore are not followed, but for the '_'
    of reader.py 342. *)
Definition enum_create (name : str) (items : list (str * Z)) : res unit :=
  if str_in (lit "mro") (map fst items) || existsb (Z.eqb 0) name then Raise ValueError
  else if existsb (fun kv => match fst kv with [] => true | _ => starts_with_underscore (fst kv) end)
                  items then Raise Unmodelled
  else Ok tt.

Definition is_final (t : ty) : bool := match t with TFinal => true | _ => false end.

(** reader.py 284-295: the loop of ObjectType.from_binary.  [fb name] is
    Type.from_binary(schema_stream, name=name).  Gives the last flags too. *)
Fixpoint object_loop (fb : str -> parser ty) (n : nat) : parser (Z * list (field_info * ty)) :=
  match n with
  | O => pfail Diverges
  | S n =>
      let! flags := read_varuint in
      let! name := read_string in
      let! naliases := read_varuint in
      let! aliases := times (Z.to_nat naliases) read_string in
      let! t := fb name in
      let! is_default := read_unsigned 1 in
      let! default := (if negb (is_default =? 0) then let! v := read t in pret (Some v)
                       else pret None) in
      if is_final t then pret (flags, [])
      else
        let! r := object_loop fb n in
        pret (fst r, ({| fi_flags := flags; fi_name := name; fi_aliases := aliases;
                         fi_default := default |}, t) :: snd r)
  end.

(** reader.py 395-399: the loop of UnionType.from_binary *)
Fixpoint union_loop (fb : parser ty) (n : nat) : parser (list ty) :=
  match n with
  | O => pfail Diverges
  | S n =>
      let! t := fb in
      if is_final t then pret []
      else let! l := union_loop fb n in pret (t :: l)
  end.

(** reader.py 299-303 ObjectType.__init__ *)
Definition object_type (flags : Z) (fields : list (field_info * ty)) : parser ty :=
  match namedtuple_names [] (map (fun f => escape_python3_identifier (fi_name (fst f))) fields) with
  | Ok _ => pret (TObject flags fields)
  | Raise e => pfail e
  end.

(** reader.py 321-343 EnumType.__init__ *)
Definition enum_type (name : str) (t : ty) (items : list (str * Z)) : parser ty :=
  match items with
  | [] => match enum_create name [] with
          | Ok _ => pret (TEnum name t [(lit "_", -1)])
          | Raise e => pfail e
          end
  | _ => match enum_create name items with
         | Ok _ => pret (TEnum name t items)
         | Raise e => pfail e
         end
  end.

(** One entry of an enum's schema (reader.py 314-317). *)
Definition enum_item (t : ty) : parser (str * Z) :=
  let! v := read t in
  let! k := read_string in
  match v with VInt z => pret (k, z) | _ => pfail Unmodelled end.

(** reader.py 462-474 Type.from_binary and the from_binary of each class (137-428).
    The table TYPES (431-459) has None at 11 to 15: calling it is a TypeError. *)
Fixpoint from_binary (fuel : nat) (name : str) : parser ty := fun l =>
  match fuel with
  | O => Raise Diverges
  | S n =>
      (let! type_index := read_varuint in
       match type_index with
       | 0 => pret TFinal
       | 1 => pret TNull
       | 2 => pret TBool
       | 3 => let! s := read_unsigned 1 in
              if existsb (Z.eqb s) [1; 2; 4; 8] then pret (TInt s) else pfail ParseError
       | 4 => let! s := read_unsigned 1 in
              if existsb (Z.eqb s) [1; 2; 4; 8] then pret (TUInt s) else pfail ParseError
       | 5 => pret TVarint
       | 6 => pret TVaruint
       | 7 => pret TF32
       | 8 => pret TF64
       | 9 => pret TBytes
       | 10 => pret TString
       | 11 | 12 | 13 | 14 | 15 => pfail TypeError
       | 16 => let! object_flags := read_varuint in
               let! r := (fun l => object_loop (from_binary n) (S (List.length l)) l) in
               object_type (fst r) (snd r)
       | 17 => let! t := from_binary n (lit "_") in
               let! nvalues := read_varuint in
               let! items := times (Z.to_nat nvalues) (enum_item t) in
               enum_type name t (dict_of items)
       | 18 => let! t := from_binary n (lit "_") in pret (TArray t)
       | 19 => let! size := read_varuint in
               let! t := from_binary n (lit "_") in pret (TFixedArray size t)
       | 20 => let! t := from_binary n (lit "_") in pret (TMap t)
       | 21 => let! items := (fun l => union_loop (from_binary n (lit "_")) (S (List.length l)) l) in
               pret (TUnion items)
       | 22 => pret TTimestamp
       | 23 => pret TDuration
       | _ => pfail RuntimeError
       end) l
  end.

(** Type.from_binary(io.BytesIO(schema)) *)
Definition type_from_binary (name : str) : parser ty :=
  fun l => from_binary (S (List.length l)) name l.
