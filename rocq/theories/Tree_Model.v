(** Model of the trees of tview (/repo/utils/gui/moteus_gui/tview.py) that show the
    configuration and the telemetry of a device, and of what is sent when the user edits an
    item: _add_schema_item, _set_tree_widget_data (112-158), _get_item_name (470-476),
    Device.config_item_changed (807-815), Device.add_config_line (847-882) and
    EditDelegate.createEditor (440-458). *)
From Coq Require Import Ascii String ZArith List Bool.
From Verif Require Import PyBase PyBytes PyFloat Reader_Model.
Import ListNotations.
Open Scope Z_scope.

(** ** Texts of numbers *)

Definition digit (d : Z) : Z := if d <? 10 then 48 + d else 87 + d.
Fixpoint digits_of (base : Z) (fuel : nat) (n : Z) : str :=
  match fuel with
  | O => []
  | S fuel => if n <? base then [digit n] else digits_of base fuel (n / base) ++ [digit (n mod base)]
  end.
Definition numeral (base n : Z) : str :=
  let d n := digits_of base (S (Z.to_nat (Z.log2 n))) n in
  if n <? 0 then 45 :: d (- n) else d n.
(** str(n), repr(n) of an int *)
Definition str_of_Z : Z -> str := numeral 10.
(** f"{n:x}" *)
Definition hex_of_Z : Z -> str := numeral 16.

(** ** Trees *)

(** A QTreeWidgetItem: text(0), text(1), the schema kept at data(1, UserRole), whether
    data(1, FORMAT_ROLE) is FMT_HEX, whether ItemIsEditable was set, and the children. *)
Inductive item := Item (label text : str) (schema : option ty) (hex editable : bool) (kids : list item).

Definition label_of (it : item) : str := let 'Item l _ _ _ _ _ := it in l.
Definition kids_of (it : item) : list item := let 'Item _ _ _ _ _ k := it in k.

(** A new item with this label, after _add_schema_item (112-128).  [flags]: terminal_flags is
    given, with ItemIsEditable. *)
Fixpoint add_schema_item (flags : bool) (label : str) (element : ty) : item :=
  match element with
  | TObject _ fields =>                                                (* 117-125 *)
      Item label [] (Some element) false false
        ((fix go (fs : list (field_info * ty)) : list item :=
            match fs with
            | [] => []
            | (i, t) :: fs => add_schema_item flags (fi_name i) t :: go fs
            end) fields)
  | _ => Item label [] (Some element) false flags []                   (* 126-128 *)
  end.

Section Repr.
(** repr of what is not an int, a bool, None or a member of an enum *)
Variable repr_other : value -> str.

(** repr(x) of the member with this name and value of an enum class with the name [cls] *)
Definition repr_enum (cls : str) (name : option str) (z : Z) : str :=
  lit "<" ++ cls ++ lit "." ++ (match name with Some n => n | None => str_of_Z z end) ++
  lit ": " ++ str_of_Z z ++ lit ">".

(** 152-157; [element] is the type [struct] was read with. *)
Definition shown_text (element : ty) (hex : bool) (struct : value) : str :=
  match struct with
  | VInt z => if hex then hex_of_Z z else str_of_Z z
  | VBool b => if b then lit "True" else lit "False"
  | VNone => lit "None"
  | VEnum name z => match element with
                    | TEnum cls _ _ => repr_enum cls name z
                    | _ => repr_other struct
                    end
  | _ => repr_other struct
  end.

Fixpoint assoc (k : str) (l : list (str * value)) : option value :=
  match l with
  | [] => None
  | (k', v) :: l => if str_eqb k k' then Some v else assoc k l
  end.

(** The new items of 135-139 *)
Definition more_kids (flags : bool) (t : ty) (from n : nat) : list item :=
  map (fun i => add_schema_item flags (str_of_Z (Z.of_nat i)) t) (seq from (n - from)).

(** _set_tree_widget_data (130-158): the item as it is then, and the exception that ended it.
    Simplification: attributes of a namedtuple other than its fields are not followed; no
    keyword of Python is one.  Values that do not have the shape of the type are not followed. *)
Fixpoint set_data (flags : bool) (element : ty) (it : item) (struct : value) : item * option exn :=
  let 'Item label text schema hex editable kids := it in
  match element with
  | TObject _ fields =>
      match struct with
      | VTuple attrs =>
          let '(kids, e) :=
            (fix go (fs : list (field_info * ty)) (kids : list item) : list item * option exn :=
               match kids with
               | [] => ([], None)
               | kid :: kids =>
                   match assoc (label_of kid) attrs with                (* 146-147 *)
                   | None => (kid :: kids, Some AttributeError)
                   | Some field =>
                       match fs with
                       | [] => (kid :: kids, Some IndexError)           (* 148 *)
                       | (_, t) :: fs =>
                           match set_data flags t kid field with
                           | (kid, Some e) => (kid :: kids, Some e)
                           | (kid, None) => let '(kids, e) := go fs kids in (kid :: kids, e)
                           end
                       end
                   end
               end) fields kids in
          (Item label text schema hex editable kids, e)
      | _ => (it, Some Unmodelled)
      end
  | TArray t | TFixedArray _ t =>
      match struct with
      | VList vs =>
          let kids := kids ++ more_kids flags t (length kids) (length vs) in
          let '(kids, e) :=
            (fix go (vs : list value) (kids : list item) : list item * option exn :=
               match kids, vs with
               | [], _ => ([], None)
               | kids, [] => (kids, Some IndexError)                    (* 143 *)
               | kid :: kids, v :: vs =>
                   match set_data flags t kid v with
                   | (kid, Some e) => (kid :: kids, Some e)
                   | (kid, None) => let '(kids, e) := go vs kids in (kid :: kids, e)
                   end
               end) vs kids in
          (Item label text schema hex editable kids, e)
      | _ => (it, Some Unmodelled)
      end
  | _ => (Item label (shown_text element hex struct) schema hex editable kids, None)   (* 151-158 *)
  end.

(** ** Histories *)

(** What happens to the tree of a record: a value arrives (769), or the user chooses a format
    for the item at a position (1237-1240); one with children has no menu (1172-1173). *)
Inductive tevent := TData (v : value) | TFormat (at_ : list nat) (hex : bool).

Fixpoint set_format (p : list nat) (h : bool) (it : item) : item :=
  let 'Item label text schema hex editable kids := it in
  match p with
  | [] => match kids with [] => Item label text schema h editable [] | _ => it end
  | i :: p =>
      Item label text schema hex editable
        ((fix go (i : nat) (kids : list item) : list item :=
            match kids, i with
            | [], _ => []
            | kid :: kids, O => set_format p h kid :: kids
            | kid :: kids, S i => kid :: go i kids
            end) i kids)
  end.

(** The tree, and the exceptions so far ("Error reading data", 715-721). *)
Definition tree_step (t : ty) (s : item * list exn) (e : tevent) : item * list exn :=
  let '(it, errors) := s in
  match e with
  | TData v => let '(it, e) := set_data false t it v in
               (it, errors ++ match e with Some e => [e] | None => [] end)
  | TFormat p h => (set_format p h it, errors)
  end.
(** 697-701: a record begins with the items of its type. *)
Definition tree_runs (name : str) (t : ty) (es : list tevent) : item * list exn :=
  fold_left (tree_step t) es (add_schema_item false name t, []).

(** The tree of one element of the configuration (672-682) *)
Definition config_item (name : str) (t : ty) (v : value) : item * option exn :=
  set_data true t (add_schema_item true name t) v.

End Repr.

(** ** Edits *)

(** _get_item_name (470-476), for the labels from the item below that of the device down to
    the item: the loop puts those above in front, with dots. *)
Fixpoint item_name (labels : list str) : str :=
  match labels with
  | [] => []
  | [l] => l
  | l :: ls => l ++ lit "." ++ item_name ls
  end.

(** value.rsplit(':', 1)[-1] *)
Fixpoint after_colon (l : str) : str :=
  match l with
  | [] => []
  | c :: l' => if (c =? 58) && negb (existsb (Z.eqb 58) l') then l'
               else if existsb (Z.eqb 58) l' then after_colon l' else l
  end.
(** .strip(' >') *)
Fixpoint drop_gt (l : str) : str :=
  match l with c :: l' => if (c =? 32) || (c =? 62) then drop_gt l' else l | [] => [] end.
Definition strip_gt (l : str) : str := rev (drop_gt (rev (drop_gt l))).

Section Lower.
(** str.lower() *)
Variable lower : str -> str.

(** config_item_changed (807-815): the bytes written, if any.  write_line (891-893) encodes
    them. *)
Definition config_item_changed (updating : bool) (name value : str) (schema : option ty) : res (list Z) :=
  if updating then Ok []
  else
    let value := match schema with
                 | Some (TEnum _ _ _) => if existsb (Z.eqb 58) value then strip_gt (after_colon value) else value
                 | _ => value
                 end in
    let value := match schema with
                 | Some TBool => if str_eqb (lower value) (lit "true") then lit "1"
                                 else if str_eqb (lower value) (lit "false") then lit "0" else value
                 | _ => value
                 end in
    let line := lit "conf set " ++ name ++ lit " " ++ value ++ [CR; LF] in
    if forallb (fun c => c <=? 255) line then Ok line else Raise UnicodeError.
End Lower.

(** The members of an enum class, as list(enum_class) gives them: of several names for a value
    only the first. *)
Fixpoint members (seen : list Z) (items : list (str * Z)) : list (str * Z) :=
  match items with
  | [] => []
  | (n, z) :: items => if existsb (Z.eqb z) seen then members seen items else (n, z) :: members (z :: seen) items
  end.
(** createEditor (440-458): what the combo box offers; None: there is none. *)
Definition offered (schema : option ty) : option (list str) :=
  match schema with
  | Some (TEnum cls _ items) => Some (map (fun kv => repr_enum cls (Some (fst kv)) (snd kv)) (members [] items))
  | Some TBool => Some [lit "False"; lit "True"]
  | _ => None
  end.

(** ** Controllers without schemas *)

(** add_config (856-880), with what is left of the key split at its dots.  A key that ends
    with a dot is taken like one without. *)
Fixpoint add_config (key : list str) (value : str) (it : item) : item :=
  let 'Item label text schema hex editable kids := it in
  match key with
  | [] | [[]] => Item label value schema hex true kids                  (* 857-863 *)
  | this_field :: next_key =>
      Item label text schema hex editable
        ((fix go (kids : list item) : list item :=
            match kids with
            | [] => [add_config next_key value (Item this_field [] None false false [])]
            | kid :: kids => if str_eqb (label_of kid) this_field then add_config next_key value kid :: kids
                             else kid :: go kids
            end) kids)
  end.

(** s.split(sep, 1) *)
Fixpoint split1 (sep : Z) (l : str) : option (str * str) :=
  match l with
  | [] => None
  | c :: l => if c =? sep then Some ([], l) else option_map (fun '(a, b) => (c :: a, b)) (split1 sep l)
  end.

(** add_config_line (847-882).  [tree] is the list of the children of the item of the device,
    which are those in _config_tree_items. *)
Definition add_config_line (line : str) (tree : list item) : res (list item) :=
  match split1 32 line with
  | None => Raise ValueError                                            (* 849 *)
  | Some (key, value) =>
      match split1 46 key with
      | None => Raise ValueError                                        (* 850 *)
      | Some (name, rest) =>
          Ok ((fix go (tree : list item) : list item :=
                 match tree with
                 | [] => [add_config (split_on 46 rest) value (Item name [] None false false [])]
                 | it :: tree => if str_eqb (label_of it) name then add_config (split_on 46 rest) value it :: tree
                                 else it :: go tree
                 end) tree)
      end
  end.

(** The loop of 654-657 *)
Fixpoint add_config_lines (lines : list str) (tree : list item) : res (list item) :=
  match lines with
  | [] => Ok tree
  | line :: lines => bind (add_config_line line tree) (add_config_lines lines)
  end.
