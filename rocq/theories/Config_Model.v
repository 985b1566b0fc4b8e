(** Model of FirmwareUpgrade, the migration of a device's configuration
    between firmware versions
    (/repo/lib/python/moteus/moteus_tool.py 81-504).

    Not modelled: the messages printed for the user. *)
From Coq Require Import Ascii String ZArith List Bool Floats.SpecFloat.
From Verif Require Import PyBase PyBytes PyFloat Tool_Model Calib_Model.
Import ListNotations.
Open Scope Z_scope.

(** ** A dict of bytes to bytes, in insertion order *)
Definition items := list (list Z * list Z).

Fixpoint dget (k : list Z) (d : items) : option (list Z) :=
  match d with
  | [] => None
  | (k', v) :: d => if bytes_eqb k k' then Some v else dget k d
  end.

(** d[k] = v: an existing key keeps its place. *)
Fixpoint dset (k v : list Z) (d : items) : items :=
  match d with
  | [] => [(k, v)]
  | (k', v') :: d => if bytes_eqb k k' then (k', v) :: d else (k', v') :: dset k v d
  end.

Definition ddel (k : list Z) (d : items) : items :=
  filter (fun p => negb (bytes_eqb k (fst p))) d.

Definition dmem (k : list Z) (d : items) : bool :=
  match dget k d with Some _ => true | None => false end.

(** d[k] *)
Definition item (k : list Z) (d : items) : res (list Z) :=
  match dget k d with Some v => Ok v | None => Raise KeyError end.

(** str(n) of an integer *)
Fixpoint nat_digits (fuel : nat) (z : Z) : list Z :=
  match fuel with
  | O => []
  | S fuel => if z <? 10 then [48 + z] else nat_digits fuel (z / 10) ++ [48 + z mod 10]
  end.

Definition int_str (z : Z) : list Z :=
  if z <? 0 then 45 :: nat_digits (S (Z.to_nat (- z))) (- z)
  else nat_digits (S (Z.to_nat z)) z.

(** ** The configuration text *)

(** dict([line.split(b' ') for line in lines if b' ' in line])
    (moteus_tool.py 105-106): a line with more than one space has more
    than two fields, and dict() refuses it. *)
Fixpoint parse_lines (lines : list (list Z)) (d : items) : res items :=
  match lines with
  | [] => Ok d
  | line :: lines =>
      if existsb (Z.eqb 32) line then
        match split_on 32 line with
        | [k; v] => parse_lines lines (dset k v d)
        | _ => Raise ValueError
        end
      else parse_lines lines d
  end.

Definition parse_config (text : list Z) : res items := parse_lines (split_on 10 text) [].

(** b'\n'.join(l) *)
Fixpoint join_lines (l : list (list Z)) : list Z :=
  match l with
  | [] => []
  | [a] => a
  | a :: l => a ++ 10 :: join_lines l
  end.

(** moteus_tool.py 503-504 *)
Definition print_config (d : items) : list Z :=
  join_lines (map (fun p => fst p ++ 32 :: snd p) d).

(** for i in l: d = f i d *)
Fixpoint for_each {A} (l : list A) (f : A -> items -> res items) (d : items) : res items :=
  match l with
  | [] => Ok d
  | i :: l => let* d := f i d in for_each l f d
  end.

Section Config.
  (** float(b) of a text, str(x) of a float, and sum() of floats. *)
  Variable parse_float : list Z -> res float.
  Variable float_str : float -> list Z.
  Variable py_sum : list float -> float.

  Let ar := float_arith py_sum.

  (** float(d.get(k, default)), the default being a number or a text of one *)
  Definition getf (k : list Z) (default : float) (d : items) : res float :=
    match dget k d with Some v => parse_float v | None => Ok default end.

  (** int(d.get(k, default)) *)
  Definition geti (k : list Z) (default : Z) (d : items) : res Z :=
    match dget k d with Some v => int10 v | None => Ok default end.

  (** float(d.get(k)): float(None) is a TypeError *)
  Definition getf_none (k : list Z) (d : items) : res float :=
    match dget k d with Some v => parse_float v | None => Raise TypeError end.

  (** float(d[k]), int(d[k]) *)
  Definition itemf (k : list Z) (d : items) : res float := let* v := item k d in parse_float v.
  Definition itemi (k : list Z) (d : items) : res Z := let* v := item k d in int10 v.

  Definition fzero := float_of_Z 0.
  Definition fone := float_of_Z 1.

  (** V_PER_HZ_FUDGE_010a * 0.5 * 60 (moteus_tool.py 85, 111, 478) *)
  Definition v_per_hz_factor : float := fmul (fmul (flit 109 2) (flit 5 1)) (float_of_Z 60).

  (** self.board_family or 0, looked up in the tables of moteus_tool.py 121-125 and 487-491 *)
  Definition family_of (family : option Z) : Z := match family with Some f => f | None => 0 end.

  Definition family_text (family : option Z) : res (list Z) :=
    let f := family_of family in
    if (f =? 0) || (f =? 1) then Ok (lit "450.0")
    else if f =? 2 then Ok (lit "100.0") else Raise KeyError.

  Definition family_power (family : option Z) : res float :=
    let f := family_of family in
    if (f =? 0) || (f =? 1) then Ok (float_of_Z 450)
    else if f =? 2 then Ok (float_of_Z 100) else Raise KeyError.

  (** *** Downgrades *)

  (** To <= 0x0109 from >= 0x010a (moteus_tool.py 108-135) *)
  Definition down_010a (family : option Z) (d : items) : res items :=
    let* kv := itemf (lit "motor.Kv") d in
    let d := ddel (lit "motor.Kv") d in
    let v_per_hz := if feqb kv fzero then int_str 0 else float_str (fdiv v_per_hz_factor kv) in
    let d := dset (lit "motor.v_per_hz") v_per_hz d in
    if dmem (lit "servo.max_power_W") d then
      let* newer := getf_none (lit "servo.max_power_W") d in
      if negb (isfinite newer) then
        let* t := family_text family in
        Ok (dset (lit "servo.max_power_W") t d)
      else
        let* pwm_rate := getf_none (lit "servo.pwm_rate_hz") d in
        let* q := float_div (float_of_Z 40000) pwm_rate in
        Ok (dset (lit "servo.max_power_W") (float_str (fmul newer q)) d)
    else Ok d.

  (** make_key (moteus_tool.py 152-153, 451-452) and the scale's key *)
  Definition table_key (mpsource index : Z) : list Z :=
    lit "motor_position.sources." ++ int_str mpsource ++ lit ".compensation_table." ++ int_str index.
  Definition scale_key (mpsource : Z) : list Z :=
    lit "motor_position.sources." ++ int_str mpsource ++ lit ".compensation_scale".

  (** The 256 bins of a source, each deleted once read (moteus_tool.py 166-169). *)
  Fixpoint take_bins (mpsource : Z) (scale : float) (l : list Z) (d : items)
    : res (list float * items) :=
    match l with
    | [] => Ok ([], d)
    | i :: l =>
        let key := table_key mpsource i in
        let* v := getf_none key d in
        let* r := take_bins mpsource scale l (ddel key d) in
        Ok (fmul v scale :: fst r, snd r)
    end.

  (** One source (moteus_tool.py 158-172) *)
  Definition downsample (mpsource : Z) (d : items) : res items :=
    let* s := getf (scale_key mpsource) fzero d in
    let d := ddel (scale_key mpsource) d in
    let* scale := float_div s (float_of_Z 127) in
    let* r := take_bins mpsource scale (py_range 0 256) d in
    for_each (py_range 0 32) (fun i d =>
      let* b := py_index (fst r) (i * 8) in
      Ok (dset (table_key mpsource i) (float_str b) d)) (snd r).

  (** d.pop(k) *)
  Definition pop (k : list Z) (d : items) : res items :=
    let* _ := item k d in Ok (ddel k d).

  (** To <= 0x0108 from >= 0x0109 (moteus_tool.py 138-172) *)
  Definition down_0109 (d : items) : res items :=
    let* en := geti (lit "servo.enable_motor_temperature") 0 d in
    let* odd := (if negb (en =? 0) then
                   let* o := getf (lit "servo.motor_thermistor_ohm") fzero d in
                   let* o := py_int o in
                   Ok (negb (o =? 47000))
                 else Ok false) in
    let d := if odd : bool then dset (lit "servo.enable_motor_temperature") (lit "0") d else d in
    let* d := pop (lit "servo.motor_thermistor_ohm") d in
    let* d := pop (lit "aux1.pwm_period_us") d in
    let* d := pop (lit "aux2.pwm_period_us") d in
    if dmem (table_key 0 0) d then for_each (py_range 0 3) downsample d
    else Ok d.

  (** To <= 0x0107 from >= 0x0108 (moteus_tool.py 174-177) *)
  Definition down_0108 (d : items) : res items :=
    let* b := getf (lit "servo.bemf_feedforward") fzero d in
    if feqb b fzero then Ok (dset (lit "servo.bemf_feedforward") (lit "1.0") d) else Ok d.

  (** To <= 0x0106 from >= 0x0107 (moteus_tool.py 179-184) *)
  Definition down_0107 (d : items) : res items :=
    let* s := itemi (lit "motor_position.output.sign") d in
    if negb (s =? 1) then Ok (dset (lit "motor_position.output.sign") (lit "1") d) else Ok d.

  (** The keys of moteus_tool.py 190-191 and 391-392 *)
  Definition poll_rate_us_key (aux dev : Z) : list Z :=
    lit "aux" ++ int_str aux ++ lit ".i2c.devices." ++ int_str dev ++ lit ".poll_rate_us".
  Definition poll_ms_key (aux dev : Z) : list Z :=
    lit "aux" ++ int_str aux ++ lit ".i2c.devices." ++ int_str dev ++ lit ".poll_ms".

  Definition i2c_devices : list (Z * Z) := [(1, 0); (1, 1); (1, 2); (2, 0); (2, 1); (2, 2)].

  (** To <= 0x0105 from >= 0x0106 (moteus_tool.py 186-196) *)
  Definition down_0106 (d : items) : res items :=
    for_each i2c_devices (fun p d =>
      let us_key := poll_rate_us_key (fst p) (snd p) in
      let* us := item us_key d in
      let d := ddel us_key d in
      let* n := int10 us in
      Ok (dset (poll_ms_key (fst p) (snd p)) (int_str (Z.max 1 (n / 1000))) d)) d.

  (** [a or b] on computations that can fail *)
  Definition or_res (a b : res bool) : res bool :=
    let* x := a in if x : bool then Ok true else b.

  (** Removal of the keys with one of some prefixes *)
  Definition drop_prefixes (ps : list (list Z)) (d : items) : items :=
    filter (fun p => negb (existsb (fun pre => startswith pre (fst p)) ps)) d.

  Definition encoder_prefixes : list (list Z) :=
    [lit "motor_position."; lit "aux1."; lit "aux2."; lit "icpz1."; lit "icpz2.";
     lit "motor.cogging_dq"; lit "servo.current_feedforward"].

  (** To <= 0x0104 from >= 0x0105 (moteus_tool.py 198-229) *)
  Definition down_0105 (d : items) : res items :=
    let neqi k n := (let* v := itemi (lit k) d in Ok (negb (v =? n))) in
    let* unmapped :=
      or_res (neqi "aux1.spi.mode"%string 0)
     (or_res (neqi "motor_position.sources.0.type"%string 1)
     (or_res (neqi "motor_position.commutation_source"%string 0)
     (or_res (neqi "motor_position.output.source"%string 0)
     (or_res (neqi "motor_position.output.reference_source"%string (-1))
     (or_res (let* v := itemf (lit "motor_position.sources.0.offset") d in
              Ok (negb (feqb v fzero)))
             (neqi "motor_position.output.sign"%string 1)))))) in
    let* d :=
      (if unmapped : bool then Ok d
       else
         let* sign := itemi (lit "motor_position.sources.0.sign") d in
         let d := ddel (lit "motor_position.sources.0.sign") d in
         let d := dset (lit "motor.invert") (if sign =? -1 then lit "1" else lit "0") d in
         let* new_offset := itemf (lit "motor_position.output.offset") d in
         let* scale := itemf (lit "motor_position.rotor_to_output_ratio") d in
         let* q := float_div new_offset scale in
         let* old_offset := py_int (fmul q (float_of_Z 65536)) in
         let d := dset (lit "motor.position_offset") (int_str old_offset) d in
         let* r := item (lit "motor_position.rotor_to_output_ratio") d in
         let d := ddel (lit "motor_position.rotor_to_output_ratio") d in
         Ok (dset (lit "motor.unwrapped_position_scale") r d)) in
    Ok (drop_prefixes encoder_prefixes d).

  (** [a and b] on computations that can fail *)
  Definition and_res (a b : res bool) : res bool :=
    let* x := a in if x : bool then b else Ok false.

  (** float(d.get(k, 0.0)) == x *)
  Definition getf_is (k : list Z) (x : float) (d : items) : res bool :=
    let* v := getf k fzero d in Ok (feqb v x).

  (** To <= 0x0103 from >= 0x0104 (moteus_tool.py 231-237) *)
  Definition down_0104 (d : items) : res items :=
    let* c := and_res (getf_is (lit "servo.pwm_comp_mag") (flit 5 3) d)
                      (getf_is (lit "servo.pwm_comp_off") (flit 55 3) d) in
    if c : bool then
      Ok (dset (lit "servo.pwm_scale") (lit "1.15")
         (dset (lit "servo.pwm_comp_mag") (lit "0.011")
         (dset (lit "servo.pwm_comp_off") (lit "0.048") d)))
    else Ok d.

  (** To <= 0x0102 from >= 0x0103 (moteus_tool.py 239-249) *)
  Definition down_0103 (d : items) : res items :=
    let* c := and_res (getf_is (lit "servo.pwm_scale") (flit 115 2) d)
                      (getf_is (lit "servo.pwm_comp_off") (flit 48 3) d) in
    let d := if c : bool then
               dset (lit "servo.pwm_comp_mag") (lit "0.003")
              (dset (lit "servo.pwm_comp_off") (lit "0.048") d)
             else d in
    let* p := itemi (lit "motor.phase_invert") d in
    if negb (p =? 0) then Ok (dset (lit "motor.poles") (lit "0") d) else Ok d.

  (** To <= 0x0100 from 0x0101 (moteus_tool.py 251-256) *)
  Definition down_0101 (d : items) : res items :=
    let* s := itemf (lit "servo.feedforward_scale") d in
    if feqb s (flit 5 1) then Ok (dset (lit "servo.feedforward_scale") (lit "1.0") d) else Ok d.

  (** *** Upgrades *)

  (** To 0x0101 from <= 0x0100 (moteus_tool.py 272-280) *)
  Definition up_0101 (d : items) : res items :=
    let* s := itemf (lit "servo.feedforward_scale") d in
    if feqb s fone then Ok (dset (lit "servo.feedforward_scale") (lit "0.5") d)
    else Ok (dset (lit "servo.feedforward_scale") (lit "0.0") d).

  (** To >= 0x0103 from <= 0x0102 (moteus_tool.py 282-287) *)
  Definition up_0103 (d : items) : res items :=
    let* c := getf_is (lit "servo.pwm_comp_mag") (flit 3 3) d in
    if c : bool then
      Ok (dset (lit "servo.pwm_comp_mag") (lit "0.011")
         (dset (lit "servo.pwm_comp_off") (lit "0.048")
         (dset (lit "servo.pwm_scale") (lit "1.15") d)))
    else Ok d.

  (** To >= 0x0104 from <= 0x0103 (moteus_tool.py 289-295) *)
  Definition up_0104 (d : items) : res items :=
    let* c := and_res (getf_is (lit "servo.pwm_comp_mag") (flit 11 3) d)
                      (getf_is (lit "servo.pwm_comp_off") (flit 48 3) d) in
    if c : bool then
      Ok (dset (lit "servo.pwm_scale") (lit "1.00")
         (dset (lit "servo.pwm_comp_mag") (lit "0.005")
         (dset (lit "servo.pwm_comp_off") (lit "0.055") d)))
    else Ok d.

  (** d[k] = d[k'] *)
  Definition copy (k k' : list Z) (d : items) : res items :=
    let* v := item k' d in Ok (dset k v d).

  (** The absolute encoder port (moteus_tool.py 302-335) *)
  Definition up_abs_port (d : items) : res items :=
    if dmem (lit "abs_port.i2c_mode") d then
      let* d := copy (lit "aux2.i2c.i2c_hz") (lit "abs_port.i2c_hz") d in
      let* d := copy (lit "aux2.i2c.i2c_mode") (lit "abs_port.i2c_mode") d in
      let* mode := itemi (lit "abs_port.mode") d in
      let* d :=
        (if negb (mode =? 0) then
           let* d := copy (lit "aux2.i2c.devices.0.type") (lit "abs_port.mode") d in
           let* d := copy (lit "aux2.i2c.devices.0.address") (lit "abs_port.encoder_i2c_address") d in
           let* d := copy (lit "aux2.i2c.devices.0.poll_ms") (lit "abs_port.encoder_poll_ms") d in
           let d := dset (lit "aux2.pins.0.mode") (lit "13") d in
           let d := dset (lit "aux2.pins.1.mode") (lit "13") d in
           let d := dset (lit "aux2.pins.0.pull") (lit "1") d in
           Ok (dset (lit "aux2.pins.1.pull") (lit "1") d)
         else Ok d) in
      let* rezero := geti (lit "servo.rezero_from_abs") 0 d in
      let* d :=
        (if negb (rezero =? 0) then
           let d := dset (lit "motor_position.sources.1.type") (lit "7") d in
           let d := dset (lit "motor_position.sources.1.aux_number") (lit "2") d in
           let d := dset (lit "motor_position.sources.1.i2c_device") (lit "0") d in
           let* d := copy (lit "motor_position.sources.1.offset") (lit "abs_port.position_offset") d in
           let d := dset (lit "motor_position.sources.1.reference") (lit "1") d in
           let d := dset (lit "motor_position.sources.1.pll_filter_hz") (lit "10") d in
           let* abs_mode := itemi (lit "abs_port.mode") d in
           let d := dset (lit "motor_position.sources.1.cpr")
                         (if abs_mode =? 1 then lit "65536" else lit "16384") d in
           let* scale := itemf (lit "abs_port.position_scale") d in
           let d := if feqb scale (fneg fone)
                    then dset (lit "motor_position.sources.1.sign") (lit "-1") d else d in
           Ok (dset (lit "motor_position.output.reference_source") (lit "1") d)
         else Ok d) in
      pop (lit "servo.rezero_from_abs") (drop_prefixes [lit "abs_port."] d)
    else Ok d.

  (** The encoder mode (moteus_tool.py 337-349) *)
  Definition up_encoder_mode (d : items) : res items :=
    if dmem (lit "encoder.mode") d then
      let* mode := geti (lit "encoder.mode") 0 d in
      let d :=
        if negb (mode =? 0) then
          dset (lit "aux1.pins.3.mode") (lit "1")
         (dset (lit "aux1.pins.2.mode") (lit "1")
         (dset (lit "aux1.pins.1.mode") (lit "1")
         (dset (lit "aux1.pins.0.mode") (lit "2")
         (dset (lit "aux1.spi.mode") (lit "2") d))))
        else d in
      pop (lit "encoder.mode") d
    else Ok d.

  (** Offset, sign and scale of the rotor (moteus_tool.py 351-356) *)
  Definition up_offset (d : items) : res items :=
    let* old_offset := itemf (lit "motor.position_offset") d in
    let d := ddel (lit "motor.position_offset") d in
    let* scale := itemf (lit "motor.unwrapped_position_scale") d in
    let* q := float_div old_offset (float_of_Z 65536) in
    let d := dset (lit "motor_position.output.offset") (float_str (fmul q scale)) d in
    let* invert := geti (lit "motor.invert") 0 d in
    let d := ddel (lit "motor.invert") d in
    let d := dset (lit "motor_position.sources.0.sign")
                  (if negb (invert =? 0) then lit "-1" else lit "1") d in
    let* r := item (lit "motor.unwrapped_position_scale") d in
    let d := ddel (lit "motor.unwrapped_position_scale") d in
    Ok (dset (lit "motor_position.rotor_to_output_ratio") r d).

  (** The filters (moteus_tool.py 358-373).  The value of ki is parsed and not used. *)
  Definition up_filters (d : items) : res items :=
    let d := if dmem (lit "servo.velocity_filter_length") d
             then ddel (lit "servo.velocity_filter_length") d else d in
    if dmem (lit "servo.encoder_filter.kp") d then
      let* kp := itemf (lit "servo.encoder_filter.kp") d in
      let d := ddel (lit "servo.encoder_filter.kp") d in
      let* _ := itemf (lit "servo.encoder_filter.ki") d in
      let d := ddel (lit "servo.encoder_filter.ki") d in
      let* en := itemi (lit "servo.encoder_filter.enabled") d in
      let d := ddel (lit "servo.encoder_filter.enabled") d in
      let* pll_hz :=
        (if en =? 0 then Ok (int_str 0)
         else
           let* w_3db := float_div kp (float_of_Z 2) in
           let* p := float_div w_3db (fmul (float_of_Z 2) fpi) in
           Ok (float_str p)) in
      let d := dset (lit "motor_position.sources.0.pll_filter_hz") pll_hz d in
      let* debug_override := itemi (lit "servo.encoder_filter.debug_override") d in
      let d := ddel (lit "servo.encoder_filter.debug_override") d in
      if debug_override >=? 0 then
        Ok (dset (lit "motor_position.sources.0.debug_override") (int_str debug_override) d)
      else Ok d
    else Ok d.

  (** The PWM rate (moteus_tool.py 380-383) *)
  Definition up_pwm_rate (d : items) : res items :=
    if dmem (lit "servo.pwm_rate_hz") d then
      let* r := itemi (lit "servo.pwm_rate_hz") d in
      if r =? 40000 then Ok (dset (lit "servo.pwm_rate_hz") (lit "30000") d) else Ok d
    else Ok d.

  (** To >= 0x0105 from <= 0x0104 (moteus_tool.py 297-385) *)
  Definition up_0105 (d : items) : res items :=
    let* d := up_abs_port d in
    let* d := up_encoder_mode d in
    let* d := up_offset d in
    let* d := up_filters d in
    up_pwm_rate d.

  (** To >= 0x0106 from <= 0x0105 (moteus_tool.py 387-400) *)
  Definition up_0106 (d : items) : res items :=
    for_each i2c_devices (fun p d =>
      let us_key := poll_rate_us_key (fst p) (snd p) in
      let ms_key := poll_ms_key (fst p) (snd p) in
      if negb (dmem us_key d) then Ok d
      else
        let* ms := item ms_key d in
        let d := ddel ms_key d in
        let* n := int10 ms in
        Ok (dset us_key (int_str (n * 1000)) d)) d.

  (** To >= 0x0107 from <= 0x0106 (moteus_tool.py 402-408): only a warning,
      but the number has to be readable. *)
  Definition up_0107 (d : items) : res items :=
    let* _ := geti (lit "motor_position.output.sign") 1 d in Ok d.

  (** To >= 0x0108 from <= 0x0107 (moteus_tool.py 410-413) *)
  Definition up_0108 (d : items) : res items :=
    let* b := getf (lit "servo.bemf_feedforward") fone d in
    if feqb b fone then Ok (dset (lit "servo.bemf_feedforward") (lit "0.0") d) else Ok d.

  Definition offset_key (i : Z) : list Z := lit "motor.offset." ++ int_str i.

  (** The settings motor.offset.0, .1, ... up to the first one missing
      (moteus_tool.py 417-424).  [n] bounds the turns: a dict has no more
      keys than entries (old_offsets_turns in Config_Proofs). *)
  Fixpoint old_offsets (n : nat) (i : Z) (d : items) : res (list float) :=
    match n with
    | O => Raise Diverges
    | S n =>
        match dget (offset_key i) d with
        | None => Ok []
        | Some v =>
            let* x := parse_float v in
            let* l := old_offsets n (i + 1) d in
            Ok (x :: l)
        end
    end.

  Fixpoint numbered {A} (i : Z) (l : list A) : list (Z * A) :=
    match l with [] => [] | x :: l => (i, x) :: numbered (i + 1) l end.

  (** The commutation offsets (moteus_tool.py 415-442) *)
  Definition up_offsets (d : items) : res items :=
    let* old := old_offsets (S (List.length d)) 0 d in
    let* offsets := unwrap ar old in
    let* mean := float_div (py_sum offsets) (float_of_Z (Z.of_nat (List.length offsets))) in
    let* w := wrap ar mean in
    let delta := fsub mean w in
    let offsets := map (fun x => fsub x delta) offsets in
    if existsb (fun p => fgtb (SFabs (fsub (fst p) (snd p))) (flit 1 2)) (combine offsets old) then
      for_each (numbered 0 offsets) (fun p d => Ok (dset (offset_key (fst p)) (float_str (snd p)) d)) d
    else Ok d.

  (** max(l) of floats: the first of the greatest; a later element replaces
      the candidate when it is greater. *)
  Definition fmax (l : list float) : res float :=
    match l with
    | [] => Raise ValueError
    | x :: l => Ok (fold_left (fun m x => if fgtb x m then x else m) l x)
    end.

  (** items.get(key).decode('latin1'), then float: None has no decode *)
  Definition getf_decode (k : list Z) (d : items) : res float :=
    match dget k d with Some v => parse_float v | None => Raise AttributeError end.

  (** One source (moteus_tool.py 460-473).  [int(127 * value / scale)]:
      the product first. *)
  Definition upsample (mpsource : Z) (d : items) : res items :=
    let* old_bins := map_res (fun i => getf_decode (table_key mpsource i) d) (py_range 0 32) in
    let* scale := fmax (map SFabs old_bins) in
    let* d := for_each (py_range 0 256) (fun i d =>
      let* n :=
        (if negb (feqb scale fzero) then
           let* r := float_div (float_of_Z i) (float_of_Z 256) in
           let* value := lerp ar old_bins r in
           let* q := float_div (fmul (float_of_Z 127) value) scale in
           py_int q
         else Ok 0) in
      Ok (dset (table_key mpsource i) (int_str n) d)) d in
    Ok (dset (scale_key mpsource) (float_str scale) d).

  (** Thermistor and compensation tables (moteus_tool.py 444-473) *)
  Definition up_tables (d : items) : res items :=
    let* en := geti (lit "servo.enable_motor_temperature") 0 d in
    let d := if negb (en =? 0) then dset (lit "servo.motor_thermistor_ohm") (lit "47000") d else d in
    if dmem (table_key 0 0) d then for_each (py_range 0 3) upsample d else Ok d.

  (** To >= 0x0109 from <= 0x0108 (moteus_tool.py 415-473) *)
  Definition up_0109 (d : items) : res items :=
    let* d := up_offsets d in up_tables d.

  (** To >= 0x010a from <= 0x0109 (moteus_tool.py 475-501) *)
  Definition up_010a (family : option Z) (d : items) : res items :=
    let* v := itemf (lit "motor.v_per_hz") d in
    let d := ddel (lit "motor.v_per_hz") d in
    let kv := if feqb v fzero then int_str 0 else float_str (fdiv v_per_hz_factor v) in
    let d := dset (lit "motor.Kv") kv d in
    if dmem (lit "servo.max_power_W") d then
      let* board_default := family_power family in
      let* old := itemf (lit "servo.max_power_W") d in
      if feqb old board_default then Ok (dset (lit "servo.max_power_W") (lit "nan") d)
      else
        let* pwm_rate := getf (lit "servo.pwm_rate_hz") (float_of_Z 40000) d in
        let* q := float_div pwm_rate (float_of_Z 40000) in
        Ok (dset (lit "servo.max_power_W") (float_str (fmul old q)) d)
    else Ok d.

  (** *** fix_config *)

  Definition rule (fires : bool) (f : items -> res items) (d : items) : res items :=
    if fires then f d else Ok d.

  (** The rules in the order of the code, on the dict. *)
  Definition migrate (old new : Z) (family : option Z) (d : items) : res items :=
    let* d := rule ((new <=? 0x0109) && (old >=? 0x010a)) (down_010a family) d in
    let* d := rule ((new <=? 0x0108) && (old >=? 0x0109)) down_0109 d in
    let* d := rule ((new <=? 0x0107) && (old >=? 0x0108)) down_0108 d in
    let* d := rule ((new <=? 0x0106) && (old >=? 0x0107)) down_0107 d in
    let* d := rule ((new <=? 0x0105) && (old >=? 0x0106)) down_0106 d in
    let* d := rule ((new <=? 0x0104) && (old >=? 0x0105)) down_0105 d in
    let* d := rule ((new <=? 0x0103) && (old >=? 0x0104)) down_0104 d in
    let* d := rule ((new <=? 0x0102) && (old >=? 0x0103)) down_0103 d in
    let* d := rule ((new <=? 0x0100) && (old =? 0x0101)) down_0101 d in
    let* d := rule ((new =? 0x0101) && (old <=? 0x0100)) up_0101 d in
    let* d := rule ((new >=? 0x0103) && (old <=? 0x0102)) up_0103 d in
    let* d := rule ((new >=? 0x0104) && (old <=? 0x0103)) up_0104 d in
    let* d := rule ((new >=? 0x0105) && (old <=? 0x0104)) up_0105 d in
    let* d := rule ((new >=? 0x0106) && (old <=? 0x0105)) up_0106 d in
    let* d := rule ((new >=? 0x0107) && (old <=? 0x0106)) up_0107 d in
    let* d := rule ((new >=? 0x0108) && (old <=? 0x0107)) up_0108 d in
    let* d := rule ((new >=? 0x0109) && (old <=? 0x0108)) up_0109 d in
    rule ((new >=? 0x010a) && (old <=? 0x0109)) (up_010a family) d.

  (** fix_config (moteus_tool.py 104-504) *)
  Definition fix_config (old new : Z) (family : option Z) (text : list Z) : res (list Z) :=
    let* d := parse_config text in
    let* d := migrate old new family d in
    Ok (print_config d).

  (** FirmwareUpgrade(old, new, board_family).fix_config(text): the
      constructor (moteus_tool.py 93-102) refuses unknown versions. *)
  Definition upgrade (old new : Z) (family : option Z) (text : list Z) : res (list Z) :=
    if new >? 0x010a then Raise RuntimeError
    else if old >? 0x010a then Raise RuntimeError
    else fix_config old new family text.
End Config.
