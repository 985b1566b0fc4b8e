(** What is said about runs of moteus_tool with several devices. *)
From Coq Require Import Ascii String ZArith List Bool.
From Verif Require Import PyBase PyBytes PyFloat Config_Model Proc Device_Model Device_Spec Runner_Model.
Import ListNotations.
Open Scope Z_scope.

Notation revent := (event rreq rrep).

(** The event is a request to the device [id] behind [prefix]. *)
Definition goes_to (prefix id : Z) (e : revent) : Prop := exists r, question e = At prefix id r.

(** What the device [id] behind [prefix] is asked, in order, with the answers. *)
Definition seen_by (prefix id : Z) (e : revent) : list ev :=
  match e with
  | existT _ r x =>
      match r return option (err + rrep r) -> list ev with
      | At p i q => fun x => if (p =? prefix) && (i =? id) then [existT _ q x] else []
      | Query _ _ => fun _ => []
      end x
  end.
Definition heard (prefix id : Z) (t : list revent) : list ev := flat_map (seen_by prefix id) t.

(** [one_by_one run l prefix t o]: the devices [l] were served in order, the device [i] with [run i],
    and the first failure, or the point where it is looked at, is where it ends. *)
Definition one_by_one (run : Z -> list ev -> option (err + unit) -> Prop) (l : list Z) (prefix : Z)
    (t : list revent) (o : option (err + unit)) : Prop :=
  Forall (fun e => exists id, In id l /\ goes_to prefix id e) t /\
  (forall t1 e1 t2 e2 t3 i j, t = t1 ++ e1 :: t2 ++ e2 :: t3 -> goes_to prefix i e1 -> goes_to prefix j e2 -> i <= j) /\
  (((o = None \/ o = Some (inr tt)) /\ forall i, In i l -> run i (heard prefix i t) (Some (inr tt))) \/
   (o <> Some (inr tt) /\ exists i, In i l /\ run i (heard prefix i t) o /\
      forall j, In j l -> (j < i -> run j (heard prefix j t) (Some (inr tt))) /\ (i < j -> heard prefix j t = []))).

(** The answer to query [id] was that a device is there. *)
Definition present (id : Z) (t : list revent) : Prop :=
  In (@Proc.answered rreq rrep (Query 0 id) (inr true)) t.
