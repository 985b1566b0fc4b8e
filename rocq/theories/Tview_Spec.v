(** Specification for C66: what tview should do with the bytes a controller sends. *)
From Coq Require Import Ascii String ZArith List Bool.
From Verif Require Import PyBase PyBytes Reader_Model Tview_Model.
Import ListNotations.
Open Scope Z_scope.

(** ** Messages *)

(** The bytes of stream 1 a message of the controller carries: 0x41, the channel, the number
    of bytes, at most 61, and the bytes; there may be padding. *)
Definition carries (data bytes : list Z) : Prop :=
  exists padding, data = [0x41; 1; Z.of_nat (length bytes)] ++ bytes ++ padding /\ (length bytes <= 61)%nat.

(** All bytes that arrive. *)
Inductive delivers : list event -> list Z -> Prop :=
| d_nil : delivers [] []
| d_run es s : delivers es s -> delivers (Run :: es) s
| d_msg data bytes es s : carries data bytes -> delivers es s -> delivers (Msg data :: es) (bytes ++ s)
| d_other data es s :
    Forall (fun b => 0 <= b <= 255) data -> ~ (exists bytes, carries data bytes) ->
    delivers es s -> delivers (Msg data :: es) s.

(** [n] times: the controller is asked, has nothing to say, and the task may run. *)
Fixpoint quiet (n : nat) : list event :=
  match n with
  | O => []
  | S n => Msg [0x41; 1; 0] :: Run :: quiet n
  end.

(** ** Reading from all the bytes that will ever arrive *)

Definition is_newline (b : Z) : bool := (b =? 13) || (b =? 10).

(** The next line that is not blank, without the white space at its end, and what follows;
    [acc] is the part of the line seen. *)
Fixpoint next_line (acc s : list Z) : option (list Z * list Z) :=
  match s with
  | [] => None
  | b :: s =>
      if is_newline b then
        match rstrip acc with
        | [] => next_line [] s
        | line => Some (line, s)
        end
      else next_line (acc ++ [b]) s
  end.

(** After one byte, a 32 bit size, least significant byte first, and that many bytes; a size
    above 2^24 is refused and nothing is taken. *)
Definition next_block (s : list Z) : option (option (list Z) * list Z) :=
  match s with
  | _ :: s0 :: s1 :: s2 :: s3 :: body =>
      let size := s0 + 256 * (s1 + 256 * (s2 + 256 * s3)) in
      if size >? 16777216 then Some (None, s)
      else if (Z.to_nat size <=? length body)%nat
           then Some (Some (firstn (Z.to_nat size) body), skipn (Z.to_nat size) body)
           else None
  | _ => None
  end.

(** What a task does with the bytes [s], up to a point where it is the task [t'] and has
    left the bytes [rest]. *)
Inductive reads : task -> list Z -> list note -> task -> list Z -> Prop :=
| r_here t s : reads t s [] t s
| r_note n k s ns t' rest : reads k s ns t' rest -> reads (Note n k) s (n :: ns) t' rest
| r_line k s line s' ns t' rest :
    next_line [] s = Some (line, s') -> reads (k line) s' ns t' rest -> reads (Line k) s ns t' rest
| r_block k s x s' ns t' rest :
    next_block s = Some (x, s') -> reads (k x) s' ns t' rest -> reads (Block k) s ns t' rest.

Definition prefix {A} (l l' : list A) : Prop := exists more, l' = l ++ more.

(** ** A controller *)

Definition text_line (l : list Z) : list Z := l ++ [13; 10].
Definition announced (head data : list Z) : list Z :=
  text_line head ++ le_bytes 4 (Z.of_nat (length data)) ++ data.

(** A name: printable, without blanks, not to be taken for the end of an answer. *)
Definition good_name (n : list Z) : Prop :=
  n <> [] /\ Forall (fun c => 33 <= c <= 126) n /\
  startswith (lit "OK") n = false /\ startswith (lit "ERR") n = false.

(** The answer to a command that lists names. *)
Definition listing (names : list (list Z)) : list Z :=
  concat (map text_line names) ++ text_line (lit "OK").

Record element := { e_name : list Z; e_schema : list Z; e_data : list Z; e_type : ty; e_value : value }.
Definition good_element (e : element) : Prop :=
  good_name (e_name e) /\
  Z.of_nat (length (e_schema e)) <= 2 ^ 24 /\ Z.of_nat (length (e_data e)) <= 2 ^ 24 /\
  (exists l, type_from_binary (e_name e) (e_schema e) = Ok (e_type e, l)) /\
  (exists l, read (e_type e) (e_data e) = Ok (e_value e, l)).

Record channel := { c_name : list Z; c_schema : list Z; c_type : ty }.
Definition good_channel (c : channel) : Prop :=
  good_name (c_name c) /\ Z.of_nat (length (c_schema c)) <= 2 ^ 24 /\
  exists l, type_from_binary (c_name c) (c_schema c) = Ok (c_type c, l).

(** What it sends by itself: a line, or a value of a channel. *)
Inductive item := Says (l : list Z) | Emits (name data : list Z).
Definition good_item (i : item) : Prop :=
  match i with
  | Says l =>
      l <> [] /\ Forall (fun c => 0 <= c <= 127 /\ c <> 13 /\ c <> 10) l /\
      is_space (last l 0) = false /\ startswith (lit "emit ") l = false
  | Emits name data => good_name name /\ Z.of_nat (length data) <= 2 ^ 24
  end.
Definition item_bytes (i : item) : list Z :=
  match i with
  | Says l => text_line l
  | Emits name data => announced (lit "emit " ++ name) data
  end.

(** The values it emits on the channels tview knows; a value that does not fit the type
    of its channel is reported. *)
Definition item_shown (cs : list (list Z * ty)) (i : item) : list note :=
  match i with
  | Says _ => []
  | Emits name data =>
      match data, find (fun c => bytes_eqb (fst c) name) cs with
      | _ :: _, Some (_, t) =>
          match read t data with
          | Ok (v, _) => [ShowsData name v]
          | Raise _ => [Complains]
          end
      | _, _ => []
      end
  end.

(** What an item makes tview do: lines go to the console. *)
Definition item_notes (cs : list (list Z * ty)) (i : item) : list note :=
  match i with Says l => [Prints (l ++ [10])] | _ => item_shown cs i end.

(** All it sends: the answers to "conf list", "conf schema", "conf data", "tel list" and
    "tel schema", then its items. *)
Definition transcript (es : list element) (cs : list channel) (is : list item) : list Z :=
  listing (map e_name es)
  ++ concat (map (fun e => announced (lit "cschema " ++ e_name e) (e_schema e)
                           ++ announced (lit "cdata " ++ e_name e) (e_data e)) es)
  ++ listing (map c_name cs)
  ++ concat (map (fun c => announced (lit "schema " ++ c_name c) (c_schema c)) cs)
  ++ concat (map item_bytes is).

(** What the user sees besides the console, and what is sent. *)
Definition seen (n : note) : bool :=
  match n with Sends _ | Prints _ | Updating _ => false | _ => true end.
Definition shown (ns : list note) : list note := filter seen ns.
Definition sent (ns : list note) : list (list Z) :=
  flat_map (fun n => match n with Sends d => [d] | _ => [] end) ns.

(** The latest channel with a name counts. *)
Definition expected_shown (es : list element) (cs : list channel) (is : list item) : list note :=
  map (fun e => ShowsConfig (e_name e) (e_value e)) es
  ++ map (fun c => AddsChannel (c_name c) (c_type c)) cs
  ++ flat_map (item_shown (rev (map (fun c => (c_name c, c_type c)) cs))) is.

Definition expected_sent (es : list element) (cs : list channel) : list (list Z) :=
  [text_line (lit "conf list")]
  ++ flat_map (fun e => [text_line (lit "conf schema " ++ e_name e); text_line (lit "conf data " ++ e_name e)]) es
  ++ [text_line (lit "tel list")]
  ++ map (fun c => text_line (lit "tel schema " ++ c_name c)) cs.
