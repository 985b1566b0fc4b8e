(** What a user sees of a run of moteus_tool, without reference to how it
    works: the commands sent to the device and the answers. *)
From Coq Require Import Ascii String ZArith List Bool.
From Verif Require Import PyBase PyBytes PyFloat Config_Model Proc Device_Model.
Import ListNotations.
Open Scope Z_scope.

Notation ev := (event treq trep).
Notation answered := (@answered treq trep).

(** The text sent, if the event sends one. *)
Definition sent (e : ev) : option (list Z) :=
  match question e with
  | Command text _ | CommandWithin text | WriteMessage text => Some text
  | _ => None
  end.

Definition sends (text : list Z) (e : ev) : Prop := sent e = Some text.

(** All texts sent, in order. *)
Definition texts (t : list ev) : list (list Z) :=
  flat_map (fun e => match sent e with Some x => [x] | None => [] end) t.

(** The device accepted the command. *)
Definition accepted (text : list Z) (e : ev) : Prop :=
  exists any reply, e = answered (Command text any) (inr reply).

(** Something is written to the persistent memory of the device. *)
Definition stores (e : ev) : Prop := sends (lit "conf write") e.

(** The text starts with these words. *)
Definition begins (p text : list Z) : Prop := exists rest, text = p ++ rest.

(** A text sets a parameter. *)
Definition set_text (name value : list Z) : list Z := lit "conf set " ++ name ++ [32] ++ value.

(** [holds name value t]: at the end of [t], [value] is what the device last
    accepted for the parameter [name], and no later attempt to set it was made. *)
Definition holds (name value : list Z) (t : list ev) : Prop :=
  exists t1 e t2, t = t1 ++ e :: t2 /\ accepted (set_text name value) e /\
    Forall (fun e => forall text, sent e = Some text -> ~ begins (set_text name []) text) t2.

(** Commands that put a voltage on the motor, and the command that removes it. *)
Definition energises (text : list Z) : Prop :=
  begins (lit "d pwm ") text \/ begins (lit "d pos ") text \/ begins (lit "d cal ") text \/
  begins (lit "d cali ") text \/ begins (lit "d ind ") text \/ begins (lit "d vdq ") text.

(** [stopped t]: each command that puts a voltage on the motor is followed by
    an accepted "d stop". *)
Definition stopped (t : list ev) : Prop :=
  forall t1 e t2 text, t = t1 ++ e :: t2 -> sent e = Some text -> energises text ->
    Exists (accepted (lit "d stop")) t2.

(** [tried commands t refused]: in [t] the commands are sent one by one, each is accepted
    or refused with a CommandError, and [refused] are those that were refused. *)
Inductive tried : list (list Z) -> list ev -> list (list Z) -> Prop :=
| tried_all : tried [] [] []
| tried_accepted c cs reply t bad : tried cs t bad ->
    tried (c :: cs) (answered (Command c false) (inr reply) :: t) bad
| tried_refused c cs m t bad : tried cs t bad ->
    tried (c :: cs) (answered (Command c false) (inl (CmdErr m)) :: t) (c :: bad).

(** ** Lines of configuration files *)
Definition blank (space : Z -> bool) (w : list Z) : Prop := Forall (fun c => space c = true) w.

(** [text] is [line] without the white space at its end. *)
Definition trimmed (space : Z -> bool) (line text : list Z) : Prop :=
  exists w, line = text ++ w /\ blank space w /\ forall l c, text = l ++ [c] -> space c = false.

(** What stands in [line] before a comment. *)
Definition before_comment (line text : list Z) : Prop :=
  ~ In 35 text /\ (line = text \/ exists comment, line = text ++ 35 :: comment).

(** The lines with something in them, in order. *)
Inductive contents (reads : list Z -> list Z -> Prop) : list (list Z) -> list (list Z) -> Prop :=
| contents_nil : contents reads [] []
| contents_skip l ls ts : reads l [] -> contents reads ls ts -> contents reads (l :: ls) ts
| contents_line l ls t ts : reads l t -> t <> [] -> contents reads ls ts -> contents reads (l :: ls) (t :: ts).
