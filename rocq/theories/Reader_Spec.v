(** The telemetry encoding, written independently of the reader: which bytes
    stand for a value of a type, and which for the type itself. *)
From Coq Require Import Ascii String ZArith List Bool.
From Coq Require Import Floats.SpecFloat.
From Verif Require Import PyBase PyBytes PyFloat Reader_Model.
Import ListNotations.
Open Scope Z_scope.

(** Groups of 7 bits, the least significant first; the top bit says that more
    follow.  Encodings with needless groups count as well. *)
Inductive varuint : Z -> list Z -> Prop :=
| vu_last v : 0 <= v < 128 -> varuint v [v]
| vu_more lo hi b : 0 <= lo < 128 -> varuint hi b -> varuint (lo + 128 * hi) ((128 + lo) :: b).

(** The numbers below 2^64 ([uint_small]).  The reader takes larger ones too, if
    all groups but the last stay below 2^64; that is written down here to make
    the theorems exact in both directions. *)
Definition uint (v : Z) (b : list Z) : Prop :=
  varuint v b /\ v mod 128 ^ (Z.of_nat (List.length b) - 1) < 2 ^ 64.

(** UTF-8 *)
Definition scalar (c : Z) : Prop := 0 <= c < 0xd800 \/ 0xe000 <= c < 0x110000.
Definition utf8_char (c : Z) : list Z :=
  if c <? 0x80 then [c]
  else if c <? 0x800 then [0xc0 + c / 64; 0x80 + c mod 64]
  else if c <? 0x10000 then [0xe0 + c / 4096; 0x80 + (c / 64) mod 64; 0x80 + c mod 64]
  else [0xf0 + c / 262144; 0x80 + (c / 4096) mod 64; 0x80 + (c / 64) mod 64; 0x80 + c mod 64].
Definition utf8 (s : str) : list Z := flat_map utf8_char s.

(** Bytes with their number in front (no object of 2^63 bytes exists). *)
Definition blob (d : list Z) (b : list Z) : Prop :=
  Z.of_nat (List.length d) < 2 ^ 63 /\
  exists n, uint (Z.of_nat (List.length d)) n /\ b = n ++ d.
Definition text (s : str) (b : list Z) : Prop := Forall scalar s /\ blob (utf8 s) b.

(** Numbers. *)
Definition int_size (size : Z) : Prop := size = 1 \/ size = 2 \/ size = 4 \/ size = 8.
Definition bits_of_f64 (y : float) : Z :=
  match y with
  | S754_zero s => if s then 2 ^ 63 else 0
  | S754_infinity s => (if s then 2 ^ 63 else 0) + 2047 * 2 ^ 52
  | S754_nan => 2047 * 2 ^ 52 + 2 ^ 51
  | S754_finite s m e =>
      (if s then 2 ^ 63 else 0) +
      (if Zpos m <? 2 ^ 52 then Zpos m else (e + 1075) * 2 ^ 52 + (Zpos m - 2 ^ 52))
  end.
(** The bit patterns of a number; a NaN has many. *)
Definition f32_pattern (y : float) (b : Z) : Prop :=
  float32_ok y /\
  match y with
  | S754_nan => (b / 2 ^ 23) mod 256 = 255 /\ b mod 2 ^ 23 <> 0
  | _ => b = bits_of_f32 y
  end.
Definition f64_pattern (y : float) (b : Z) : Prop :=
  float_ok y /\
  match y with
  | S754_nan => (b / 2 ^ 52) mod 2048 = 2047 /\ b mod 2 ^ 52 <> 0
  | _ => b = bits_of_f64 y
  end.
Definition word (n : nat) (v : Z) (b : list Z) : Prop := b = le_bytes n v.

(** The attribute a field is read under: Python's keywords get a prefix. *)
Definition attribute (name : str) : str :=
  if str_in name keyword_list then lit "py_" ++ name else name.

(** The entry with that value that comes first. *)
Definition first_name (items : list (str * Z)) (z : Z) (o : option str) : Prop :=
  match o with
  | Some k => exists l r, items = l ++ (k, z) :: r /\ ~ In z (map snd l)
  | None => ~ In z (map snd items)
  end.

(** A dict with the entries [l] assigned in order: a new key goes to the end, a
    known one keeps its place and gets the new value. *)
Inductive dict_with {A} : list (str * A) -> list (str * A) -> Prop :=
| dw_nil : dict_with [] []
| dw_new l d k v : dict_with l d -> ~ In k (map fst d) -> dict_with (l ++ [(k, v)]) (d ++ [(k, v)])
| dw_old l d1 k v d2 v' : dict_with l (d1 ++ (k, v) :: d2) ->
    dict_with (l ++ [(k, v')]) (d1 ++ (k, v') :: d2).

(** ** Data *)
Inductive enc : ty -> value -> list Z -> Prop :=
| e_null : enc TNull VNone []
| e_bool b : 0 <= b < 256 -> enc TBool (VBool (negb (b =? 0))) [b]
| e_int size v b : int_size size -> - 2 ^ (8 * size - 1) <= v < 2 ^ (8 * size - 1) ->
    word (Z.to_nat size) v b -> enc (TInt size) (VInt v) b
| e_uint size v b : int_size size -> 0 <= v < 2 ^ (8 * size) ->
    word (Z.to_nat size) v b -> enc (TUInt size) (VInt v) b
| e_varuint v b : uint v b -> enc TVaruint (VInt v) b
| e_f32 y w b : f32_pattern y w -> 0 <= w < 2 ^ 32 -> word 4 w b -> enc TF32 (VFloat (of_f32 y)) b
| e_f64 y w b : f64_pattern y w -> 0 <= w < 2 ^ 64 -> word 8 w b -> enc TF64 (VFloat y) b
| e_bytes d b : blob d b -> enc TBytes (VBytes d) b
| e_string s b : text s b -> enc TString (VStr s) b
| e_object flags fs vs b : enc_fields fs vs b -> enc (TObject flags fs) (VTuple vs) b
| e_enum name t items z o b : enc t (VInt z) b -> first_name items z o ->
    enc (TEnum name t items) (VEnum o z) b
| e_array t vs n b : uint (Z.of_nat (List.length vs)) n -> enc_list t vs b ->
    enc (TArray t) (VList vs) (n ++ b)
| e_fixed_array size t vs b : size = Z.of_nat (List.length vs) -> enc_list t vs b ->
    enc (TFixedArray size t) (VList vs) b
| e_map t kvs d n b : uint (Z.of_nat (List.length kvs)) n -> enc_pairs t kvs b -> dict_with kvs d ->
    enc (TMap t) (VDict d) (n ++ b)
| e_union ts i t n v b : uint (Z.of_nat i) n -> nth_error ts i = Some t -> enc t v b ->
    enc (TUnion ts) v (n ++ b)
| e_timestamp us b : - 2 ^ 63 <= us < 2 ^ 63 -> word 8 us b -> enc TTimestamp (VFloat (seconds us)) b
| e_duration us b : - 2 ^ 63 <= us < 2 ^ 63 -> word 8 us b -> enc TDuration (VFloat (seconds us)) b
with enc_fields : list (field_info * ty) -> list (str * value) -> list Z -> Prop :=
| ef_nil : enc_fields [] [] []
| ef_cons i t fs v vs b b' : fi_name i <> lit "async" -> fi_name i <> lit "await" ->
    enc t v b -> enc_fields fs vs b' ->
    enc_fields ((i, t) :: fs) ((attribute (fi_name i), v) :: vs) (b ++ b')
with enc_list : ty -> list value -> list Z -> Prop :=
| el_nil t : enc_list t [] []
| el_cons t v vs b b' : enc t v b -> enc_list t vs b' -> enc_list t (v :: vs) (b ++ b')
with enc_pairs : ty -> list (str * value) -> list Z -> Prop :=
| ep_nil t : enc_pairs t [] []
| ep_cons t k v kvs bk b b' : text k bk -> enc t v b -> enc_pairs t kvs b' ->
    enc_pairs t ((k, v) :: kvs) (bk ++ b ++ b').

(** ** Schemas *)
Definition plain_name (s : str) : Prop :=
  all_ascii s = true /\ ascii_identifier s = true /\ starts_with_underscore s = false.
Definition attribute_names (fs : list (field_info * ty)) : list str :=
  map (fun f => attribute (fi_name (fst f))) fs.
(** Names of enum members that Python's enum accepts. *)
Definition member_name (s : str) : Prop := plain_name s /\ s <> lit "mro".

Inductive texts : list str -> list Z -> Prop :=
| tx_nil : texts [] []
| tx_cons s l b b' : text s b -> texts l b' -> texts (s :: l) (b ++ b').

(** The entries of an enum. *)
Inductive enc_items (t : ty) : list (str * Z) -> list Z -> Prop :=
| ei_nil : enc_items t [] []
| ei_cons k z l bz bk b : enc t (VInt z) bz -> text k bk -> enc_items t l b ->
    enc_items t ((k, z) :: l) (bz ++ bk ++ b).

(** A byte that says whether a default value follows. *)
Inductive schema_default (t : ty) : option value -> list Z -> Prop :=
| sd_none : schema_default t None [0]
| sd_some v c b : 0 < c < 256 -> enc t v b -> schema_default t (Some v) (c :: b).

Definition code (i : Z) (b : list Z) : Prop := uint i b.

(** [schema name t b]: [b] describes [t], [name] being the name of the field it
    is the type of ("_" if none), which an enum takes for its own. *)
Inductive schema : str -> ty -> list Z -> Prop :=
| s_final nm c : code 0 c -> schema nm TFinal c
| s_null nm c : code 1 c -> schema nm TNull c
| s_bool nm c : code 2 c -> schema nm TBool c
| s_int nm c size : code 3 c -> int_size size -> schema nm (TInt size) (c ++ [size])
| s_uint nm c size : code 4 c -> int_size size -> schema nm (TUInt size) (c ++ [size])
| s_varint nm c : code 5 c -> schema nm TVarint c
| s_varuint nm c : code 6 c -> schema nm TVaruint c
| s_f32 nm c : code 7 c -> schema nm TF32 c
| s_f64 nm c : code 8 c -> schema nm TF64 c
| s_bytes nm c : code 9 c -> schema nm TBytes c
| s_string nm c : code 10 c -> schema nm TString c
| s_object nm c flags fs bf b : code 16 c -> uint flags bf -> schema_fields fs b ->
    NoDup (attribute_names fs) -> schema nm (TObject flags fs) (c ++ bf ++ b)
| s_enum nm c t items bt n b : code 17 c -> schema (lit "_") t bt ->
    uint (Z.of_nat (List.length items)) n -> enc_items t items b -> items <> [] ->
    NoDup (map fst items) -> Forall member_name (map fst items) -> ~ In 0 nm ->
    schema nm (TEnum nm t items) (c ++ bt ++ n ++ b)
| s_array nm c t b : code 18 c -> schema (lit "_") t b -> schema nm (TArray t) (c ++ b)
| s_fixed_array nm c size n t b : code 19 c -> uint size n -> schema (lit "_") t b ->
    schema nm (TFixedArray size t) (c ++ n ++ b)
| s_map nm c t b : code 20 c -> schema (lit "_") t b -> schema nm (TMap t) (c ++ b)
| s_union nm c ts b : code 21 c -> schema_list ts b -> schema nm (TUnion ts) (c ++ b)
| s_timestamp nm c : code 22 c -> schema nm TTimestamp c
| s_duration nm c : code 23 c -> schema nm TDuration c
(** The fields: flags, name, number of aliases, aliases, type, default.  The last
    one has the type 0 and is otherwise empty. *)
with schema_fields : list (field_info * ty) -> list Z -> Prop :=
| sf_nil : schema_fields [] [0; 0; 0; 0; 0]
| sf_cons i t fs bf bn na ba bt bd b :
    plain_name (fi_name i) -> fi_name i <> lit "async" -> fi_name i <> lit "await" ->
    uint (fi_flags i) bf -> text (fi_name i) bn ->
    uint (Z.of_nat (List.length (fi_aliases i))) na -> texts (fi_aliases i) ba ->
    schema (fi_name i) t bt -> t <> TFinal -> schema_default t (fi_default i) bd ->
    schema_fields fs b ->
    schema_fields ((i, t) :: fs) (bf ++ bn ++ na ++ ba ++ bt ++ bd ++ b)
with schema_list : list ty -> list Z -> Prop :=
| sl_nil c : code 0 c -> schema_list [] c
| sl_cons t ts b b' : schema (lit "_") t b -> t <> TFinal -> schema_list ts b' ->
    schema_list (t :: ts) (b ++ b').

(** A type without the flags of its objects. *)
Fixpoint forget_flags (t : ty) : ty :=
  match t with
  | TObject _ fs => TObject 0 (map (fun f => (fst f, forget_flags (snd f))) fs)
  | TEnum n t items => TEnum n (forget_flags t) items
  | TArray t => TArray (forget_flags t)
  | TFixedArray n t => TFixedArray n (forget_flags t)
  | TMap t => TMap (forget_flags t)
  | TUnion ts => TUnion (map forget_flags ts)
  | t => t
  end.
