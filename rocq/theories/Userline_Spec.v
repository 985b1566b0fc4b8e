(** Specification for C68: the commands a user can enter in tview, and what they mean
    (docs/reference.md 2310-2362: commands separated by &&, "A>" or a number and ">" to choose a
    device, ":" and milliseconds to wait, "?" to wait for the end of a trajectory). *)
From Coq Require Import ZArith List Bool.
From Verif Require Import PyBase PyBytes Userline_Model.
Import ListNotations.
Open Scope Z_scope.

(** ** Lines *)

Inductive target := First | All | One (digits : list Z).
Inductive command :=
| Delay (digits : list Z)                            (* :1000 *)
| Until (digits : option (list Z))                   (* ? or ?3 *)
| Send (to : target) (pad text : list Z).            (* d stop, A> d stop, 3> d stop *)

Definition decimal (ds : list Z) : Z := fold_left (fun n c => 10 * n + (c - 48)) ds 0.

Definition render (c : command) : list Z :=
  match c with
  | Delay ds => 58 :: ds
  | Until None => [63]
  | Until (Some ds) => 63 :: ds
  | Send First _ text => text
  | Send All pad text => [65; 62] ++ pad ++ text
  | Send (One ds) pad text => ds ++ [62] ++ pad ++ text
  end.

(** A line: commands with blanks around them, and && between them. *)
Fixpoint render_line (l : list (list Z * command * list Z)) : list Z :=
  match l with
  | [] => []
  | [(a, c, b)] => a ++ render c ++ b
  | (a, c, b) :: l => a ++ render c ++ b ++ [38; 38] ++ render_line l
  end.

(** What Python knows about characters, as far as it matters here. *)
Definition sensible (u : unicode) : Prop :=
  (forall c, 0 <= c <= 255 -> u_digit u c = if (48 <=? c) && (c <=? 57) then Some (c - 48) else None) /\
  (forall c, 33 <= c <= 126 -> u_space u c = false).

Definition digits (ds : list Z) : Prop := ds <> [] /\ Forall (fun c => 48 <= c <= 57) ds.
Definition blanks (u : unicode) (l : list Z) : Prop := Forall (fun c => u_space u c = true) l.

(** It does not contain && and does not end with &. *)
Fixpoint amp_free (l : list Z) : bool :=
  match l with
  | [] => true
  | [38] => false
  | 38 :: 38 :: _ => false
  | _ :: l => amp_free l
  end.
(** It begins and ends with something else than a blank, and is one line. *)
Definition tidy (u : unicode) (t : list Z) : Prop :=
  amp_free t = true /\ ~ In 10 t /\
  (t = [] \/ (u_space u (hd 0 t) = false /\ u_space u (last t 0) = false)).
(** It cannot be taken for one of the other commands. *)
Definition all_digits (u : unicode) (ds : list Z) : Prop := ds <> [] /\ Forall (fun c => u_digit u c <> None) ds.
Definition ordinary (u : unicode) (t : list Z) : Prop :=
  (forall ds, t = 58 :: ds -> ~ all_digits u ds) /\
  (forall ds, t = 63 :: ds -> ds <> [] /\ ~ all_digits u ds) /\
  (forall p r, t = p ++ 62 :: r -> p <> [65] /\ ~ all_digits u p).

Definition good_command (u : unicode) (c : command) : Prop :=
  match c with
  | Delay ds | Until (Some ds) => digits ds
  | Until None => True
  | Send First _ text => tidy u text /\ ordinary u text
  | Send All pad text => blanks u pad /\ tidy u text /\ (text = [] -> pad = [])
  | Send (One ds) pad text => digits ds /\ blanks u pad /\ tidy u text /\ (text = [] -> pad = [])
  end.

(** What the commands do, for devices with these numbers.  Text that has no latin1 form cannot
    be sent: it ends the line. *)
Fixpoint place_of (n : Z) (devices : list Z) : option nat :=
  match devices with
  | [] => None
  | m :: ds => if n =? m then Some O else option_map S (place_of n ds)
  end.
Definition one_of (n : Z) (devices : list Z) : list nat :=
  match place_of n devices with Some k => [k] | None => [] end.
Definition targets (devices : list Z) (to : target) : list nat :=
  match to with
  | First => [O]
  | All => seq 0 (length devices)
  | One ds => one_of (decimal ds) devices
  end.

Fixpoint meaning (devices : list Z) (cs : list command) : list action :=
  match cs with
  | [] => []
  | Delay ds :: cs => Sleep (decimal ds) :: meaning devices cs
  | Until who :: cs =>
      map Query (match who with None => [O] | Some ds => one_of (decimal ds) devices end) ++ meaning devices cs
  | Send to _ text :: cs =>
      match targets devices to with
      | [] => meaning devices cs
      | ks => if forallb (fun c => c <=? 255) text
              then map (fun k => Write k (text ++ [10])) ks ++ meaning devices cs
              else []
      end
  end.

(** ** Time *)

(** The lines entered, each with what was done for it. *)
Definition add_action (a : action) (l : list (list Z * list action)) : list (list Z * list action) :=
  match l with
  | (line, acts) :: l => (line, acts ++ [a]) :: l
  | [] => []
  end.
(** latest first *)
Definition done_for (log : list uentry) : list (list Z * list action) :=
  fold_left (fun l e => match e with
                        | Entered line => (line, []) :: l
                        | Did a => add_action a l
                        | _ => l end) log [].

Definition is_wait (a : action) : Prop := match a with Write _ _ => False | _ => True end.
(** Nothing, or everything, or everything up to the beginning of a wait. *)
Definition cut_at_wait (acts plan : list action) : Prop :=
  acts = [] \/ acts = plan \/
  exists before w after, acts = before ++ [w] /\ is_wait w /\ plan = before ++ w :: after.

(** The values of trajectory_done that arrived from device [i]. *)
Definition arrivals (i : nat) (log : list uentry) : list bool :=
  flat_map (fun e => match e with Arrived j d => if (j =? i)%nat then [d] else [] | _ => [] end) log.
Definition inputs (es : list uevent) : list (list Z) :=
  flat_map (fun e => match e with UInput line => [line] | _ => [] end) es.
