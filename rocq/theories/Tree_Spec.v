(** Specification for C69: what the trees of tview should show, and under which names. *)
From Coq Require Import Ascii String ZArith List Bool.
From Verif Require Import PyBase PyBytes PyFloat Reader_Model Reader_Spec Tree_Model.
Import ListNotations.
Open Scope Z_scope.

(** ** Numbers in a base: a sign for negative ones, digits (a to f above 9), no leading zeros. *)
Definition digit_value (c : Z) : Z := if c <? 97 then c - 48 else c - 87.
Definition positional (base : Z) (s : str) : Z := fold_left (fun n c => base * n + digit_value c) s 0.
Definition natural (base n : Z) (s : str) : Prop :=
  s <> [] /\
  Forall (fun c => (48 <= c <= 57 \/ 97 <= c <= 102) /\ digit_value c < base) s /\
  (hd 0 s = 48 -> s = [48]) /\
  positional base s = n.
Definition written (base z : Z) (s : str) : Prop :=
  if z <? 0 then exists t, s = 45 :: t /\ natural base (- z) t else natural base z s.

(** ** Values *)

(** The single values in a value, each with the names of the fields and the indices that lead
    to it and its type; None for an object or array without any. *)
Fixpoint leaves (label : str) (t : ty) (v : value) : list (list str * ty * option value) :=
  let below l := map (fun '(p, t, v) => (label :: p, t, v)) l in
  match t with
  | TObject _ fs =>
      match fs, v with
      | [], _ => [([label], t, None)]
      | fs, VTuple vs =>
          below ((fix go (fs : list (field_info * ty)) (vs : list (str * value)) :=
                    match fs, vs with
                    | (i, t) :: fs, (_, v) :: vs => leaves (fi_name i) t v ++ go fs vs
                    | _, _ => []
                    end) fs vs)
      | _, _ => []
      end
  | TArray t' | TFixedArray _ t' =>
      match v with
      | VList [] => [([label], t, None)]
      | VList vs =>
          below ((fix go (n : nat) (vs : list value) :=
                    match vs with
                    | v :: vs => leaves (str_of_Z (Z.of_nat n)) t' v ++ go (S n) vs
                    | [] => []
                    end) O vs)
      | _ => []
      end
  | _ => [([label], t, Some v)]
  end.

(** A type of single values *)
Definition leaf_ty (t : ty) : Prop := match t with TObject _ _ | TArray _ | TFixedArray _ _ => False | _ => True end.

(** No field has a keyword of Python for a name. *)
Fixpoint no_keyword (t : ty) : Prop :=
  match t with
  | TObject _ fs =>
      (fix go (fs : list (field_info * ty)) : Prop :=
         match fs with
         | [] => True
         | (i, t) :: fs => ~ In (fi_name i) keyword_list /\ no_keyword t /\ go fs
         end) fs
  | TArray t | TFixedArray _ t => no_keyword t
  | _ => True
  end.

(** Fields of an object have different names, without dots. *)
Fixpoint distinct_names (t : ty) : Prop :=
  match t with
  | TObject _ fs =>
      NoDup (map (fun f => fi_name (fst f)) fs) /\
      (fix go (fs : list (field_info * ty)) : Prop :=
         match fs with
         | [] => True
         | (i, t) :: fs => ~ In 46 (fi_name i) /\ distinct_names t /\ go fs
         end) fs
  | TArray t | TFixedArray _ t => distinct_names t
  | _ => True
  end.

(** No array of [v'] is shorter than it was in [v]. *)
Fixpoint not_shorter (t : ty) (v v' : value) : Prop :=
  match t with
  | TObject _ fs =>
      match v, v' with
      | VTuple vs, VTuple vs' =>
          (fix go (fs : list (field_info * ty)) (vs vs' : list (str * value)) : Prop :=
             match fs, vs, vs' with
             | (_, t) :: fs, (_, v) :: vs, (_, v') :: vs' => not_shorter t v v' /\ go fs vs vs'
             | _, _, _ => True
             end) fs vs vs'
      | _, _ => False
      end
  | TArray t | TFixedArray _ t =>
      match v, v' with
      | VList vs, VList vs' =>
          (fix go (vs vs' : list value) : Prop :=
             match vs, vs' with
             | [], _ => True
             | v :: vs, v' :: vs' => not_shorter t v v' /\ go vs vs'
             | _ :: _, [] => False
             end) vs vs'
      | _, _ => False
      end
  | _ => True
  end.

(** The values of the packets of a run; none has a shorter array than the one before. *)
Definition values (es : list tevent) : list value := flat_map (fun e => match e with TData v => [v] | _ => [] end) es.
Fixpoint chain (t : ty) (vs : list value) : Prop :=
  match vs with
  | v :: ((v' :: _) as vs) => not_shorter t v v' /\ chain t vs
  | _ => True
  end.

(** All arrays have a fixed size. *)
Fixpoint fixed_size (t : ty) : Prop :=
  match t with
  | TObject _ fs =>
      (fix go (fs : list (field_info * ty)) : Prop :=
         match fs with [] => True | (_, t) :: fs => fixed_size t /\ go fs end) fs
  | TArray _ => False
  | TFixedArray _ t => fixed_size t
  | _ => True
  end.

(** ** What is on the screen *)

(** The items without children, in order: the labels that lead to it, and the item. *)
Fixpoint rows (it : item) : list (list str * item) :=
  let 'Item label _ _ _ _ kids := it in
  match kids with
  | [] => [([label], it)]
  | _ => map (fun '(p, it) => (label :: p, it))
           ((fix go (kids : list item) := match kids with [] => [] | k :: kids => rows k ++ go kids end) kids)
  end.

(** The item at a position shows hexadecimal numbers. *)
Fixpoint hex_at (p : list nat) (it : item) : bool :=
  match p, it with
  | [], Item _ _ _ h _ _ => h
  | i :: p, Item _ _ _ _ _ kids => match nth_error kids i with Some k => hex_at p k | None => false end
  end.
Fixpoint leaf_at (p : list nat) (it : item) : bool :=
  match p, it with
  | [], Item _ _ _ _ _ kids => match kids with [] => true | _ => false end
  | i :: p, Item _ _ _ _ _ kids => match nth_error kids i with Some k => leaf_at p k | None => false end
  end.

(** What the text of a value should be. *)
Definition text_of (repr_other : value -> str) (t : ty) (hex : bool) (v : value) (s : str) : Prop :=
  match v with
  | VInt z => written (if hex then 16 else 10) z s
  | VBool true => s = lit "True"
  | VBool false => s = lit "False"
  | VNone => s = lit "None"
  | VEnum (Some n) z => match t with
                        | TEnum cls _ _ => exists d, written 10 z d /\ s = lit "<" ++ cls ++ lit "." ++ n ++ lit ": " ++ d ++ lit ">"
                        | _ => s = repr_other v
                        end
  | VEnum None z => match t with
                    | TEnum cls _ _ => exists d, written 10 z d /\ s = lit "<" ++ cls ++ lit "." ++ d ++ lit ": " ++ d ++ lit ">"
                    | _ => s = repr_other v
                    end
  | _ => s = repr_other v
  end.

(** A row shows a single value. *)
Definition row_shows (repr_other : value -> str) (leaf : list str * ty * option value) (row : list str * item) : Prop :=
  let '(p, t, v) := leaf in
  let '(p', Item _ text schema hex _ _) := row in
  p' = p /\ schema = Some t /\
  match v with Some v => text_of repr_other t hex v text | None => text = [] end.

Definition editable_of (it : item) : bool := let 'Item _ _ _ _ e _ := it in e.
Definition text_in (it : item) : str := let 'Item _ t _ _ _ _ := it in t.
Definition schema_in (it : item) : option ty := let 'Item _ _ s _ _ _ := it in s.

(** What should be sent for a value: numbers in decimal, also for members of an enum, and 1 and
    0 for booleans. *)
Definition meant (t : ty) (v : value) (text s : str) : Prop :=
  match v with
  | VInt z => written 10 z s
  | VEnum _ z => match t with TEnum _ _ _ => written 10 z s | _ => s = text end
  | VBool b => match t with TBool => s = (if b then lit "1" else lit "0") | _ => s = text end
  | _ => s = text
  end.

(** ** Controllers without schemas: lines of a key and a value *)

(** The item at labels *)
Fixpoint find_label (l : str) (kids : list item) : option item :=
  match kids with
  | [] => None
  | k :: kids => if str_eqb (label_of k) l then Some k else find_label l kids
  end.
Fixpoint item_at (p : list str) (kids : list item) : option item :=
  match p with
  | [] => None
  | [l] => find_label l kids
  | l :: p => match find_label l kids with Some k => item_at p (kids_of k) | None => None end
  end.
(** The value in the last line with the key. *)
Fixpoint last_value (p : list str) (lines : list (list str * str)) : option str :=
  match lines with
  | [] => None
  | (q, v) :: lines => match last_value p lines with
                       | Some v => Some v
                       | None => if list_eq_dec (list_eq_dec Z.eq_dec) p q then Some v else None
                       end
  end.
(** "motor.poles 14" *)
Definition config_line (l : list str * str) : str := item_name (fst l) ++ lit " " ++ snd l.
(** A key of at least two parts, without dots and spaces in them, and the last not empty. *)
Definition good_key (p : list str) : Prop :=
  (2 <= length p)%nat /\ Forall (fun l => ~ In 46 l /\ ~ In 32 l) p /\ last p [] <> [].
