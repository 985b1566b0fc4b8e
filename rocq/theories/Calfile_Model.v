(** Model of the recording of a calibration:
    /repo/lib/python/moteus/calibrate_encoder.py 34-75 (parse_file) and
    /repo/lib/python/moteus/moteus_tool.py 1398-1414 (the loop that reads the
    device's report). *)
From Coq Require Import Ascii String ZArith List Bool.
From Verif Require Import PyBase PyBytes PyFloat Tool_Model Calib_Model Flash_Model Encoder_Model.
Import ListNotations.
Open Scope Z_scope.

(** int(s) of a latin1 str; see str_int16. *)
Definition str_int10 (s : list Z) : res Z :=
  int10 (map (fun c => if (c =? 0x85) || (c =? 0xa0) then 32 else c) s).

(** fp.readlines() of an io.BytesIO: each line with its line feed. *)
Fixpoint read_lines (l : list Z) : list (list Z) :=
  match l with
  | [] => []
  | b :: l =>
      if b =? 10 then [b] :: read_lines l
      else match read_lines l with
           | [] => [[b]]
           | w :: ws => (b :: w) :: ws
           end
  end.

(** ' '.join(l) *)
Fixpoint join_spaces (l : list (list Z)) : list Z :=
  match l with
  | [] => []
  | [a] => a
  | a :: l => a ++ 32 :: join_spaces l
  end.

(** check_line (calibrate_encoder.py 56-57) *)
Definition check_line (cmd : list Z) : list Z := join_spaces (firstn 2 (split_on 32 (str_strip cmd))).

(** in (calibrate_encoder.py 62, 64) *)
Definition among (w : list Z) (l : list (list Z)) : bool := existsb (bytes_eqb w) l.

(** l[-1], l[1:-1] *)
Definition inner {A} (l : list A) : list A := removelast (tl l).

Section Parse.
  (** float(s) *)
  Variable parse_float : list Z -> res float.

  (** calibrate_encoder.py 44-51 *)
  Fixpoint parse_currents (fields : list (list Z)) (e : entry float) : res (entry float) :=
    match fields with
    | [] => Ok e
    | field :: fields =>
        match split_on 61 field with
        | [key; val] =>
            let '(Entry d p n i1 i2 i3) := e in
            if bytes_eqb key (lit "i1") then
              let* v := parse_float val in
              parse_currents fields (Entry d p n (fmul v (flit 1 3)) i2 i3)
            else if bytes_eqb key (lit "i2") then
              let* v := parse_float val in
              parse_currents fields (Entry d p n i1 (fmul v (flit 1 3)) i3)
            else if bytes_eqb key (lit "i3") then
              let* v := parse_float val in
              parse_currents fields (Entry d p n i1 i2 (fmul v (flit 1 3)))
            else parse_currents fields e
        | _ => Raise ValueError
        end
    end.

  (** _parse_entry (calibrate_encoder.py 34-53).  The class attributes i1, i2, i3 are the
      integer 0, here a float. *)
  Definition parse_entry (line : list Z) : res (entry float) :=
    match split_on 32 line with
    | f0 :: f1 :: f2 :: fields =>
        let* direction := str_int10 f0 in
        let* phase := str_int10 f1 in
        let* encoder := str_int10 f2 in
        parse_currents fields (Entry direction phase encoder (float_of_Z 0) (float_of_Z 0) (float_of_Z 0))
    | _ => Raise RuntimeError
    end.

  (** parse_file (calibrate_encoder.py 60-75): (phase_up, phase_down); decode('latin1') is the
      identity on code points. *)
  Definition parse_file (data : list Z) : res (list (entry float) * list (entry float)) :=
    let lines := read_lines data in
    match lines with
    | [] => Raise IndexError
    | first :: _ =>
        if negb (among (check_line first) [lit "CAL start"; lit "CALI start"]) then Raise RuntimeError
        else if negb (among (check_line (last lines [])) [lit "CAL done"; lit "CALI done"])
        then Raise RuntimeError
        else
          let* entries := map_res parse_entry (inner lines) in
          Ok (filter (fun x => (e_direction x =? 1) || (e_direction x =? 3)) entries,
              filter (fun x => (e_direction x =? 2) || (e_direction x =? 4)) entries)
    end.
End Parse.

(** bytes.strip() *)
Definition bytes_strip (l : list Z) : list Z := rstrip (drop_space l).

(** The loop (moteus_tool.py 1400-1414).  [lines] is what the successive readline()
    return: the data and the lines not read, or None while more has to
    arrive.  The progress display is left out. *)
Fixpoint collect (lines : list (list Z)) (cal_data : list Z) : option (res (list Z) * list (list Z)) :=
  match lines with
  | [] => None
  | raw :: lines =>
      let line := bytes_strip raw in
      let cal_data := cal_data ++ line ++ [10] in
      if startswith (lit "CAL done") line || startswith (lit "CALI done") line then Some (Ok cal_data, lines)
      else if startswith (lit "CAL start") line || startswith (lit "CALI start") line then collect lines cal_data
      else if startswith (lit "ERR") line then Some (Raise RuntimeError, lines)
      else if startswith (lit "CAL") line then Some (Raise RuntimeError, lines)
      else collect lines cal_data
  end.
